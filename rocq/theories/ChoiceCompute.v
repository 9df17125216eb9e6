(* Model of choice_computation (include/operations/algorithms/choice_computation.hpp:793-1232):
   sweeping, the derivation of the network with choices, and its duplication in
   depth-first order.

   SIGNAL_NULL is [None].  The candidate classes and their refinement by
   simulation (cand_equiv_classes, resimulate) are an oracle [sim]: get_sim_repr
   is asked once for every gate, when the gate is swept, and may answer
   anything.  The marks and traversal numbers of the resimulation are not
   modelled. *)
From Verif Require Import Base Aig AigSem Cnf Choice ChoiceSat.

Notation nmap := (list (option signal)).
(* old2new[f.index] ^ f.complement; reading SIGNAL_NULL is a failure *)
Definition img (m : nmap) (f : signal) : option signal :=
  o ← m !! sidx f; g ← o; Some (sxor g (scompl f)).
Definition new_map (sz : nat) : nmap := <[0 := Some (get_constant false)]> (repeat None sz).

(* a loop over a list with the state passed on *)
Fixpoint each {S A} (f : A -> S -> option S) (l : list A) (x : S) : option S :=
  match l with
  | [] => Some x
  | a :: r => y ← f a x; each f r y
  end.

(* ---------- sweeping, 867-927 ---------- *)
Record sweep := Sweep { sw_net : aig; sw_map : nmap; sw_repr : list nat; sw_prover : prover }.

Section sweep.
Context (ps : sparams) (solve : oracle) (sim : nat -> nat) (s : aig).

(* 899-927 sweep_node *)
Definition sweep_node (n new_node : nat) (w : sweep) : option sweep :=
  let r := sim n in
  if decide (r = n) then Some w
  else
    o ← sw_map w !! r;
    match o with
    | None => Some w
    | Some f =>
        if decide (sidx f = new_node) then Some (Sweep (sw_net w) (sw_map w) (<[n := r]> (sw_repr w)) (sw_prover w))
        else
          '(a, p) ← sat_prove ps (sw_net w) solve (sidx f) new_node (sw_prover w);
          match a with
          | Timeout => Some (Sweep (sw_net w) (<[n := None]> (sw_map w)) (sw_repr w) p)
          | Failure =>
              pn ← ph s !! n;
              pr ← ph s !! r;
              Some (Sweep (sw_net w) (<[n := Some (sxor f (xorb pn pr))]> (sw_map w)) (<[n := r]> (sw_repr w)) p)
          | Success _ => Some (Sweep (sw_net w) (sw_map w) (sw_repr w) p)
          end
    end.

(* 875-886 *)
Definition sweep_gate (n : nat) (w : sweep) : option sweep :=
  k ← ks s !! n;
  a ← sw_map w !! sidx k.1;
  b ← sw_map w !! sidx k.2;
  match a, b with
  | Some fa, Some fb =>
      '(f, t) ← create_and (sxor fa (scompl k.1)) (sxor fb (scompl k.2)) (sw_net w);
      sweep_node n (sidx f) (Sweep t (<[n := Some f]> (sw_map w)) (sw_repr w) (sw_prover w))
  | _, _ => Some w
  end.

Definition sweep_ci (n : nat) (w : sweep) : option sweep :=
  '(f, t) ← create_pi (sw_net w);
  _ ← sw_map w !! n;
  Some (Sweep t (<[n := Some f]> (sw_map w)) (sw_repr w) (sw_prover w)).

(* 808-815 and 867-893; [nb] is the number of buckets of new hash tables *)
Definition man_sweep (nb : nat) : option (list nat) :=
  p ← prover_init (size s);
  w ← each sweep_ci (ins s) (Sweep (aig_init_n nb) (new_map (size s)) (seq 0 (size s)) p);
  gs ← gates s;
  w ← each sweep_gate gs w;
  Some (sw_repr w).
End sweep.

(* ---------- derive_choice_aig, 1051-1140 ---------- *)
Notation dstate := (prod cnet nmap).

(* the inputs of a network with choices: awc.create_pi(); old2new[i] = signal(i, 0) *)
Definition copy_ci (n : nat) (d : dstate) : option dstate :=
  '(_, c) ← base_op create_pi d.1;
  _ ← d.2 !! n;
  Some (c, <[n := Some (Sig n false)]> d.2).

(* 1074-1078 *)
Definition get_repr_signal (c : cnet) (f : signal) : option signal :=
  r ← get_repr c (sidx f);
  pr ← ph (cb c) !! r;
  pf ← ph (cb c) !! sidx f;
  Some (Sig r (xorb (xorb pr pf) (scompl f))).

(* 1085-1090 *)
Fixpoint repr_loop (fuel : nat) (c : cnet) (f : signal) : option signal :=
  match fuel with
  | O => None
  | S fuel' =>
      g ← get_repr_signal c f;
      if decide (g = f) then Some g else repr_loop fuel' c g
  end.

Section derive.
Context (rp : list nat) (s : aig).

(* 1061-1109 *)
Definition derive_gate (n : nat) (d : dstate) : option dstate :=
  let '(c, m) := d in
  r ← rp !! n;
  ci ← is_ci s r;
  if ci : bool then
    o ← m !! r; g ← o; pn ← ph s !! n; pr ← ph s !! r;
    Some (c, <[n := Some (sxor g (xorb pn pr))]> m)
  else
    k ← ks s !! n;
    a ← img m k.1; b ← img m k.2;
    a' ← get_repr_signal c a; b' ← get_repr_signal c b;
    '(f0, c) ← base_op (create_and a' b') c;
    f ← repr_loop (S (length (reprs c))) c f0;
    o ← m !! n;
    match o with
    | Some _ => None (* assertion *)
    | None =>
        let m := <[n := Some f]> m in
        if decide (r = n) then Some (c, m)
        else if decide (n <= r) then None (* assertion *)
        else
          o ← m !! r; g ← o;
          if decide (sidx f <= sidx g) then Some (c, m)
          else
            fs ← fanout_size (cb c) (sidx f);
            if decide (fs <> 0%N) then Some (c, m)
            else
              '(_, c) ← set_choice (sidx f) (sidx g) c;
              Some (c, m)
    end.

(* 1110-1114 *)
Definition derive_co (f : signal) (d : dstate) : option dstate :=
  let '(c, m) := d in
  g ← img m f;
  h ← get_repr_signal c g;
  '(_, c) ← base_op (create_po h) c;
  Some (c, m).

Definition derive (nb : nat) : option cnet :=
  d ← each copy_ci (ins s) (cnet_of (aig_init_n nb) (size s), new_map (size s));
  gs ← gates s;
  d ← each derive_gate gs d;
  d ← each derive_co (outs s) d;
  Some d.1.
End derive.

(* ---------- man_dup_dfs, 1147-1206 ---------- *)
Section dup.
Context (t : cnet).

(* 1182-1206; the result is left in the map *)
Fixpoint dup_rec (fuel : nat) (n : nat) (d : dstate) : option dstate :=
  match fuel with
  | O => None
  | S fuel' =>
      o ← d.2 !! n;
      match o with
      | Some _ => Some d
      | None =>
          e ← get_equiv_node t n;
          d ← match e with Some x => dup_rec fuel' x d | None => Some d end;
          ne ← match e with Some x => o ← d.2 !! x; f ← o; Some (Some f) | None => Some None end;
          k ← ks (cb t) !! n;
          d ← dup_rec fuel' (sidx k.1) d;
          d ← dup_rec fuel' (sidx k.2) d;
          a ← img d.2 k.1; b ← img d.2 k.2;
          '(f, c) ← base_op (create_and a b) d.1;
          c ← match ne with
              | Some g => if decide (sidx g < sidx f) then '(_, c) ← set_equiv (sidx f) (sidx g) c; Some c else Some c
              | None => Some c
              end;
          Some (c, <[n := Some f]> d.2)
      end
  end.

Definition dup_co (f : signal) (d : dstate) : option dstate :=
  d ← dup_rec (S (size (cb t))) (sidx f) d;
  g ← img d.2 f;
  '(_, c) ← base_op (create_po g) d.1;
  Some (c, d.2).

(* 1147-1165 *)
Definition man_dup_dfs (nb : nat) : option cnet :=
  d ← each copy_ci (ins (cb t)) (cnet_of (aig_init_n nb) (size (cb t)), new_map (size (cb t)));
  d ← each dup_co (outs (cb t)) d;
  Some d.1.
End dup.

(* 832-861, 1051-1140 *)
Definition derive_choice_aig (nb : nat) (rp : list nat) (s : aig) : option cnet :=
  t ← derive rp s nb; man_dup_dfs t nb.
Definition compute_choice (ps : sparams) (solve : oracle) (sim : nat -> nat) (nb : nat) (s : aig) : option cnet :=
  rp ← man_sweep ps solve sim s nb; derive_choice_aig nb rp s.

(* ---- specification ---- *)
(* The networks choices are computed for: the inputs are the nodes 1, 2, ...,
   no gate is dead, fanins precede their gates, and the phase of a node is its
   value for the all-zero input. *)
Record swept (s : aig) : Prop := {
  sp_net : network s;
  sp_order : forall n m, fanin s n m -> m < n;
  sp_ins : ins s = seq 1 (length (ins s));
  sp_live : alive s;
  sp_phase : forall n v, n < size s -> valuation s (fun _ => false) v -> ph s !! n = Some (v n)
}.
(* nodes n and m of s have the same or complementary functions *)
Definition alike (s : aig) (n m : nat) : Prop :=
  exists c : bool, forall env v, valuation s env v -> v n = xorb (v m) c.
(* a representative is never a later node, and it is alike *)
Definition sound_reprs (s : aig) (rp : list nat) : Prop :=
  length rp = size s /\ forall n r, rp !! n = Some r -> r <= n /\ alike s n r.
(* the representative of a node is the node itself or the first node alike *)
Definition first_reprs (s : aig) (rp : list nat) : Prop :=
  forall n r, rp !! n = Some r -> r = n \/ forall m, m < size s -> alike s n m -> r <= m.
(* the outputs of t compute what those of s do *)
Definition same_outputs (s t : aig) : Prop :=
  length (ins t) = length (ins s) /\
  forall env v w, valuation s env v -> valuation t env w -> map (sval w) (outs t) = map (sval v) (outs s).
