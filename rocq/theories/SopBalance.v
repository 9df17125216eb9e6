(* Model of include/operations/optimization/balancing.hpp (cut-based balancing with any
   rebalancing function) and balancing/sop_balancing.hpp (the rebalancing function that
   builds trees from a sum of products).

   A level is a natural number, or [None] for the largest uint32_t; adding one to that
   gives 0, otherwise levels do not overflow.  The cache of sums of products is left
   out: it returns what isop returned before.  The order of a priority queue among
   entries of the same level is open: [tie] says which entry is on top. *)
From Verif Require Import Base Aig AigSem AigProofs Topo Clean Tt TtCache Cut CutEnum Isop RefDeref.

Notation lvl := (option nat).
Definition llt (a b : lvl) : bool :=
  match a, b with
  | Some x, Some y => bool_decide (x < y)
  | Some _, None => true
  | None, _ => false
  end.
Definition lmax (a b : lvl) : lvl := if llt a b then b else a.
Definition lsucc (a : lvl) : lvl := match a with Some x => Some (S x) | None => Some 0 end.

(* balancing.hpp:78-83 arrival_time_pair *)
Notation arrival := (signal * lvl)%type.
(* balancing.hpp:97-101: what a rebalancing function gets, and the candidates it passes
   to the callback, in order *)
Definition rebalance : Type := tt -> list arrival -> lvl -> nat -> M aig (list (arrival * nat)).
(* balancing.hpp:176-177, sop_balancing.hpp:57 *)
Definition better (l : lvl) (size : nat) (l' : lvl) (size' : nat) : bool :=
  llt l l' || bool_decide (l = l') && bool_decide (size < size').

(* ---- sop_balancing.hpp ---- *)
Section sop.
Variable tie : list arrival -> nat.

(* balancing/utils.hpp:25-36: the entry on top has a smallest level *)
Definition pop (q : list arrival) : option (arrival * list arrival) :=
  x ← q !! tie q;
  if forallb (fun y => negb (llt y.2 x.2)) q then Some (x, delete (tie q) q) else None.

(* sop_balancing.hpp:92-111 balanced_tree *)
Fixpoint balanced_tree (fuel : nat) (conj : bool) (q : list arrival) : M aig arrival :=
  match q with
  | [] => ret (get_constant true, Some 0)
  | [x] => ret x
  | _ =>
    match fuel with
    | O => fail
    | S fuel' =>
      let! p1 := lift (pop q) in
      let! p2 := lift (pop p1.2) in
      let! f := (if conj then create_and p1.1.1 p2.1.1 else create_or p1.1.1 p2.1.1) in
      balanced_tree fuel' conj ((f, lsucc (lmax p1.1.2 p2.1.2)) :: p2.2)
    end
  end.

(* sop_balancing.hpp:74-81 *)
Fixpoint product_queue (c : cube) (inputs : list arrival) (l : list nat) : option (list arrival) :=
  match l with
  | [] => Some []
  | i :: r =>
    if get_cmask c i then
      x ← inputs !! i;
      q ← product_queue c inputs r;
      Some ((if get_cbit c i then x.1 else snot x.1, x.2) :: q)
    else product_queue c inputs r
  end.
(* sop_balancing.hpp:71-87 *)
Definition add_cube (n : nat) (inputs : list arrival) (x : list arrival * nat) (c : cube) : M aig (list arrival * nat) :=
  let! q := lift (product_queue c inputs (seq 0 n)) in
  let! f := balanced_tree (length q) true q in
  ret (f :: x.1, x.2 + (length q - 1)).
(* sop_balancing.hpp:51-61 operator(), 64-90 create_function *)
Definition sop_rebalancing : rebalance := fun t inputs best_level best_cost =>
  let! cs := lift (isop t) in
  let! x := foldM (add_cube (nv t) inputs) ([], 0) cs in
  let num := x.2 + (length x.1 - 1) in
  let! cand := balanced_tree (length x.1) false x.1 in
  ret (if better cand.2 num best_level best_cost then [(cand, num)] else []).
End sop.

(* ---- balancing.hpp ---- *)
Definition amap : Type := nat -> arrival.

(* balancing.hpp:120-128; the other entries are default-constructed *)
Definition balancing_inputs (s : aig) : M aig amap :=
  foldM (fun m n => let! f := create_pi in ret (setv m n (f, Some 0))) (fun _ => (Sig 0 false, Some 0)) (pis s).

(* balancing.hpp:175-181: the callback *)
Definition consider (b : arrival * nat) (c : arrival * nat) : arrival * nat :=
  if better c.1.2 c.2 b.1.2 b.2 then c else b.
(* balancing.hpp:164-182: one cut *)
Definition try_cut {D} (fn : rebalance) (ca : cache) (m : amap) (b : arrival * nat) (c : cut D) : M aig (arrival * nat) :=
  if decide (length (lvs c) = 1) then ret b
  else
    let! t := lift (cache_get (fid c) ca) in
    if tt_is_const0 t then ret b
    else let! cands := fn t (map m (lvs c)) b.1.2 b.2 in ret (foldl consider b cands).

Section balancing.
Context {D : Type}.
Variable fn : rebalance.
(* ps.only_on_critical_path: the critical nodes and the levels of the depth view *)
Variable crit : option ((nat -> bool) * (nat -> nat)).

(* balancing.hpp:144-186: one node; best.f is default-constructed *)
Definition balancing_node (s : aig) (x : list (cutset D) * cache) (m : amap) (n : nat) : M aig amap :=
  let! pi := lift (is_pi s n) in
  if decide (n = 0 \/ pi = true) then ret m
  else
    match crit with
    | Some (on_path, level) =>
      if on_path n then
        let! cs := lift (x.1 !! n) in
        let! b := foldM (try_cut fn x.2 m) ((Sig 0 false, None), 0) (vis cs) in
        ret (setv m n b.1)
      else
        let! k := lift (ks s !! n) in
        let! f := create_and (sxor (m (sidx k.1)).1 (scompl k.1)) (sxor (m (sidx k.2)).1 (scompl k.2)) in
        ret (setv m n (f, Some (level n)))
    | None =>
      let! cs := lift (x.1 !! n) in
      let! b := foldM (try_cut fn x.2 m) ((Sig 0 false, None), 0) (vis cs) in
      ret (setv m n b.1)
    end.

(* balancing.hpp:115-196 run; the cuts are those of the parameters *)
Definition balancing (nb : nat) (s : aig) (cuts : option (list (cutset D) * cache)) : option aig :=
  '(m, d) ← balancing_inputs s (aig_init_n nb);
  x ← cuts;
  l ← aig_topo s;
  '(m', d1) ← foldM (balancing_node s x) m l d;
  '(_, d2) ← mapM (fun f => create_po (sxor (m' (sidx f)).1 (scompl f))) (pos s) d1;
  cleanup_dangling nb d2 false false.
End balancing.

(* ---- specification ---- *)
(* a rebalancing function builds candidates with the given function, and finds one if
   there is none yet *)
Definition input_values (d : aig) (env : nat -> bool) (inputs : list arrival) (k : nat) : bool :=
  match inputs !! k with Some x => sval (ev d env) x.1 | None => false end.
Definition rebalances (T : Prop) (fn : rebalance) : Prop :=
  forall t inputs bl bc d, tt_wf t -> (exists x, tt_eval t x = true) -> length inputs = nv t -> reachable d ->
    Forall (fun x => valid d x.1 /\ is_Some x.2) inputs ->
    match fn t inputs bl bc d with
    | None => T
    | Some (r, d') => reachable d' /\ ext d d' /\ (bl = None -> r <> []) /\
        Forall (fun c => valid d' c.1.1 /\ is_Some c.1.2 /\ forall env, sval (ev d' env) c.1.1 = tt_eval t (input_values d env inputs)) r
    end.
(* the choice among the entries of a priority queue is one of a smallest level *)
Definition on_top (tie : list arrival -> nat) : Prop :=
  forall q, q <> [] -> exists x, q !! tie q = Some x /\ forallb (fun y : arrival => negb (llt y.2 x.2)) q = true.
