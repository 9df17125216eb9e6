(* Model of include/operations/algorithms/aig_with_choice.hpp: an AIG with
   choice links.

   AIG_NULL is [None].  The scratch fields value (data[0].h2) and visited
   (data[1].h1) of the nodes are total functions on node indices; every access
   of the code is guarded here by the bounds of the node vector.  The traversal
   number is a [nat]: its wrap-around at 2^32 is not modelled. *)
From Verif Require Import Base Aig AigSem.

Record cnet := Cnet {
  cb : aig;                      (* the base network *)
  equivs : list (option nat);    (* _equivs *)
  reprs : list nat;              (* _reprs *)
  cval : nat -> nat;             (* value(n) *)
  cvis : nat -> nat;             (* visited(n) *)
  ctrav : nat                    (* trav_id() *)
}.

Definition upd (f : nat -> nat) (n v : nat) : nat -> nat := fun k => if decide (k = n) then v else f k.

(* aig_with_choice.hpp:85-95 init_choices, 51-55: an empty network with room for
   [sz] choice entries *)
Definition init_equivs (sz : nat) : list (option nat) := repeat None sz.
Definition init_reprs (sz : nat) : list nat := seq 0 sz.
Definition cnet_of (s : aig) (sz : nat) : cnet :=
  Cnet s (init_equivs sz) (init_reprs sz) (fun _ => 0) (fun _ => 0) 0.
(* aig_with_choice.hpp:57-61: the choice network of an existing network *)
Definition choice_of_aig (s : aig) : cnet := cnet_of s (size s).

(* creation calls of the base class *)
Definition base_op {A} (m : M aig A) : M cnet A := fun c =>
  match m (cb c) with
  | Some (a, s) => Some (a, Cnet s (equivs c) (reprs c) (cval c) (cvis c) (ctrav c))
  | None => None
  end.

(* aig_network.hpp:790-793 *)
Definition is_and (s : aig) (n : nat) : option bool :=
  ci ← is_ci s n; Some (bool_decide (0 < n) && negb ci).

(* aig_with_choice.hpp:73-76, 79-82, 68-71 *)
Definition get_equiv_node (c : cnet) (n : nat) : option (option nat) := equivs c !! n.
Definition get_repr (c : cnet) (n : nat) : option nat := reprs c !! n.
Definition is_repr (c : cnet) (n : nat) : option bool :=
  e ← equivs c !! n;
  match e with
  | None => Some false
  | Some _ => f ← fanout_size (cb c) n; Some (bool_decide (0 < f)%N)
  end.

(* aig_with_choice.hpp:247-252 (and 258-261): set_value along the list *)
Fixpoint mark_class (fuel : nat) (c : cnet) (v : nat) (tmp : option nat) (val : nat -> nat) : option (nat -> nat) :=
  match fuel with
  | O => None
  | S fuel' =>
      match tmp with
      | None => Some val
      | Some n => _ ← ks (cb c) !! n;
                  e ← equivs c !! n;
                  mark_class fuel' c v e (upd val n v)
      end
  end.

(* aig_with_choice.hpp:265-285 check_tfi_rec; [vis] is the visited field.
   Every recursive call below a fresh mark, so the number of nodes bounds the
   depth. *)
Fixpoint check_tfi_rec (fuel : nat) (c : cnet) (val : nat -> nat) (tid : nat) (n : option nat)
    (vis : nat -> nat) : option (bool * (nat -> nat)) :=
  match fuel with
  | O => None
  | S fuel' =>
      match n with
      | None => Some (false, vis)
      | Some n =>
          ci ← is_ci (cb c) n;
          if ci : bool then Some (false, vis)
          else if decide (val n = 1) then Some (true, vis)
          else if decide (vis n = tid) then Some (false, vis)
          else
            let vis0 := upd vis n tid in
            k ← ks (cb c) !! n;
            '(r0, vis1) ← check_tfi_rec fuel' c val tid (Some (sidx k.1)) vis0;
            if r0 : bool then Some (true, vis1)
            else
              '(r1, vis2) ← check_tfi_rec fuel' c val tid (Some (sidx k.2)) vis1;
              if r1 : bool then Some (true, vis2)
              else
                e ← equivs c !! n;
                check_tfi_rec fuel' c val tid e vis2
      end
  end.

(* aig_with_choice.hpp:244-263 check_tfi *)
Definition check_tfi (n r : nat) : M cnet bool := fun c =>
  val ← mark_class (S (length (equivs c))) c 1 (Some r) (cval c);
  let tid := S (ctrav c) in
  '(b, vis) ← check_tfi_rec (size (cb c) + 2) c val tid (Some n) (cvis c);
  val' ← mark_class (S (length (equivs c))) c 0 (Some r) val;
  Some (b, Cnet (cb c) (equivs c) (reprs c) val' vis tid).

(* aig_with_choice.hpp:113-117: last node of the list *)
Fixpoint class_tail (fuel : nat) (c : cnet) (tmp : nat) : option nat :=
  match fuel with
  | O => None
  | S fuel' =>
      e ← equivs c !! tmp;
      match e with
      | None => Some tmp
      | Some n => class_tail fuel' c n
      end
  end.

(* aig_with_choice.hpp:103-124 set_choice, including its assertions *)
Definition set_choice (n r : nat) : M cnet bool := fun c =>
  if decide (n <= r) then Some (false, c)
  else
    '(b, c) ← check_tfi n r c;
    if b : bool then Some (false, c)
    else
      _ ← reprs c !! n;
      t ← class_tail (S (length (equivs c))) c r;
      let c' := Cnet (cb c) (<[t := Some n]> (equivs c)) (<[n := r]> (reprs c)) (cval c) (cvis c) (ctrav c) in
      e ← equivs c' !! n;
      match e with
      | None => Some (true, c')
      | Some _ => None
      end.

(* aig_with_choice.hpp:132-135 *)
Definition set_equiv (n e : nat) : M cnet unit := fun c =>
  _ ← equivs c !! n;
  Some (tt, Cnet (cb c) (<[n := Some e]> (equivs c)) (reprs c) (cval c) (cvis c) (ctrav c)).

(* aig_with_choice.hpp:140-163 is_mux *)
Definition is_mux (s : aig) (n : nat) : option bool :=
  a ← is_and s n;
  if negb a then Some false
  else
    k ← ks s !! n;
    if negb (scompl k.1) || negb (scompl k.2) then Some false
    else
      a0 ← is_and s (sidx k.1);
      if negb a0 then Some false
      else
        a1 ← is_and s (sidx k.2);
        if negb a1 then Some false
        else
          k0 ← ks s !! sidx k.1;
          k1 ← ks s !! sidx k.2;
          Some (bool_decide (k0.1 = snot k1.1) || bool_decide (k0.1 = snot k1.2) ||
                bool_decide (k0.2 = snot k1.1) || bool_decide (k0.2 = snot k1.2)).

(* aig_with_choice.hpp:173-242 recognize_mux: (i, t, e) *)
Definition recognize_mux (s : aig) (n : nat) : option (signal * signal * signal) :=
  m ← is_mux s n;
  if negb m then None
  else
    k ← ks s !! n;
    k0 ← ks s !! sidx k.1;
    k1 ← ks s !! sidx k.2;
    let '(c00, c01) := k0 in
    let '(c10, c11) := k1 in
    if decide (c01 = snot c11) then
      if scompl c01 then Some (c11, snot c10, snot c00) else Some (c01, snot c00, snot c10)
    else if decide (c00 = snot c10) then
      if scompl c00 then Some (c10, snot c11, snot c01) else Some (c00, snot c01, snot c11)
    else if decide (c00 = snot c11) then
      if scompl c00 then Some (c11, snot c10, snot c01) else Some (c00, snot c01, snot c10)
    else if decide (c01 = snot c10) then
      if scompl c01 then Some (c10, snot c11, snot c00) else Some (c01, snot c00, snot c11)
    else None.

(* ---- specification ---- *)
(* n' is the next member of n's class *)
Definition link (c : cnet) (n n' : nat) : Prop := equivs c !! n = Some (Some n').
(* The combined graph: an AND node points to its fanins and to the next member
   of its class. *)
Definition cedge (c : cnet) (n m : nat) : Prop :=
  fanin (cb c) n m \/ (is_gate (cb c) n /\ link c n m).
Definition acyclic (R : nat -> nat -> Prop) : Prop := forall n, ~ tc R n n.

(* Histories of a choice network: creation calls on the base network and
   set_choice calls, in any order. *)
Inductive chist : cnet -> Prop :=
| ch_init s sz : reachable s -> chist (cnet_of s sz)
| ch_step c o f c' : chist c -> Forall (valid (cb c)) (operands o) ->
    base_op (step o) c = Some (f, c') -> chist c'
| ch_choice c n r b c' : chist c -> set_choice n r c = Some (b, c') -> chist c'.

(* The same when every node linked is new to all classes. *)
Definition in_class (c : cnet) (n : nat) : Prop := exists m, link c n m \/ link c m n.
Inductive chist_fresh : cnet -> Prop :=
| cf_init s sz : reachable s -> chist_fresh (cnet_of s sz)
| cf_step c o f c' : chist_fresh c -> Forall (valid (cb c)) (operands o) ->
    base_op (step o) c = Some (f, c') -> chist_fresh c'
| cf_choice c n r b c' : chist_fresh c -> ~ in_class c n ->
    set_choice n r c = Some (b, c') -> chist_fresh c'.
