(* Model of include/database/views/depth_view.hpp.  Levels are natural numbers:
   the wrap-around of uint32_t is not modelled. *)
From Verif Require Import Base Aig AigSem Topo Clean.

Section depth.
(* NodeCostFn (utils/cost_functions.hpp: unit_cost is constantly 1, zero_cost 0);
   any function of the node *)
Variable cost : nat -> nat.
(* depth_view.hpp:28-32 depth_view_params::count_complements *)
Variable cc : bool.

(* depth_view.hpp:196-199, 217-220, 269-272 *)
Definition edge_cost (f : signal) : nat := if cc && scompl f then 1 else 0.

(* depth_view.hpp:181-210 compute_levels(n); state: visited fields and _levels *)
Fixpoint level_rec (s : aig) (tid fuel n : nat) : M (list nat * list nat) nat :=
  match fuel with
  | O => fail
  | S fuel' => fun x =>
      v ← x.1 !! n;
      if decide (v = tid) then l ← x.2 !! n; Some (l, x)
      else
        let x0 := (<[n := tid]> x.1, x.2) in
        pi ← is_pi s n;
        if bool_decide (n = 0) || pi then
          _ ← x.2 !! n; Some (0, (x0.1, <[n := 0]> x0.2))
        else
          fs ← fanins s n;
          '(lvl, x1) ← foldM (fun lvl f =>
              let! c := level_rec s tid fuel' (sidx f) in
              ret (Nat.max lvl (c + edge_cost f))) 0 fs x0;
          _ ← x1.2 !! n;
          Some (lvl + cost n, (x1.1, <[n := lvl + cost n]> x1.2))
  end.

(* _levels and _depth *)
Record dview := DV { dv_lev : list nat; dv_depth : nat }.

(* depth_view.hpp:164-171 and 212-223 update_levels, compute_levels; [marks] are
   the visited fields before the call and [trav] the traversal number *)
Definition update_levels (s : aig) (marks : list nat) (trav : nat) : option dview :=
  '(d, x) ← foldM (fun d f =>
      let! c := level_rec s (trav + 1) (S (size s)) (sidx f) in
      ret (Nat.max d (c + edge_cost f))) 0 (pos s) (marks, repeat 0 (size s));
  Some (DV x.2 d).

(* depth_view.hpp:139-142 *)
Definition level (v : dview) (n : nat) : option nat := dv_lev v !! n.

(* node_map.hpp:163-169 resize *)
Definition resize_levels (s : aig) (lev : list nat) : list nat := lev ++ repeat 0 (size s - length lev).

(* depth_view.hpp:262-272: largest level of the fanins *)
Fixpoint max_level (lev : list nat) (fs : list signal) : option nat :=
  match fs with
  | [] => Some 0
  | f :: r => l ← lev !! sidx f; m ← max_level lev r; Some (Nat.max (l + edge_cost f) m)
  end.

(* depth_view.hpp:258-275 on_add *)
Definition on_add (s : aig) (n : nat) (v : dview) : option dview :=
  let lev := resize_levels s (dv_lev v) in
  fs ← fanins s n;
  l ← max_level lev fs;
  _ ← lev !! n;
  Some (DV (<[n := l + cost n]> lev) (dv_depth v)).

(* Creation calls made through the view.  create_pi adds no node event; a call
   of create_and that makes a node triggers on_add (aig_network.hpp:359-362).
   The other constructors are sequences of create_and calls. *)
Definition dv_pi : M (aig * dview) signal := fun x =>
  '(f, s) ← create_pi x.1; Some (f, (s, x.2)).
Definition dv_and (a b : signal) : M (aig * dview) signal := fun x =>
  '(f, s) ← create_and a b x.1;
  if decide (size s = size x.1) then Some (f, (s, x.2))
  else v ← on_add s (size x.1) x.2; Some (f, (s, v)).
(* depth_view.hpp:173-178 create_po *)
Definition dv_po (f : signal) : M (aig * dview) nat := fun x =>
  '(i, s) ← create_po f x.1;
  l ← dv_lev x.2 !! sidx f;
  Some (i, (s, DV (dv_lev x.2) (Nat.max (dv_depth x.2) l))).

Inductive dop := DPi | DAnd (a b : signal) | DPo (f : signal).
Definition dstep (o : dop) : M (aig * dview) unit :=
  match o with
  | DPi => dv_pi ;;; ret tt
  | DAnd a b => dv_and a b ;;; ret tt
  | DPo f => dv_po f ;;; ret tt
  end.

(* depth_view.hpp:94-113: the view of an empty network.  update_levels is not
   called; the maps have the size of the empty network. *)
Definition dv_empty (buckets : nat) : aig * dview := (aig_init_n buckets, DV [0] 0).

(* ---- specification ---- *)
(* weight of a connection: 1 for an inverter if inverters are counted *)
Definition inverter_cost (f : signal) : nat := if cc && scompl f then 1 else 0.
(* w is the total cost of the nodes on some path from a source to n.  Register
   outputs are not primary inputs: the code counts them like gates without
   fanins. *)
Inductive path_cost (s : aig) : nat -> nat -> Prop :=
| pc_source n : n = 0 \/ n ∈ pis s -> path_cost s n 0
| pc_register n : n ∈ ins s -> n ∉ pis s -> path_cost s n (cost n)
| pc_gate n a b f w : ks s !! n = Some (a, b) -> n <> 0 -> a <> b -> f = a \/ f = b ->
    path_cost s (sidx f) w -> path_cost s n (w + inverter_cost f + cost n).
End depth.

Definition unit_cost (_ : nat) : nat := 1.

(* the largest element of a set of numbers *)
Definition maximum (P : nat -> Prop) (w : nat) : Prop := P w /\ forall w', P w' -> w' <= w.

(* n is below a primary output *)
Definition below_po (s : aig) (n : nat) : Prop :=
  exists f, f ∈ pos s /\ rtc (fanin s) (sidx f) n.

(* cost of the paths ending in a primary output *)
Definition po_cost (cost : nat -> nat) (cc : bool) (s : aig) (w : nat) : Prop :=
  w = 0 \/ exists f w', f ∈ pos s /\ path_cost cost cc s (sidx f) w' /\ w = w' + inverter_cost cc f.

(* states of a view that starts empty and is only changed through itself *)
Inductive dreach (cost : nat -> nat) (cc : bool) : aig * dview -> Prop :=
| dr_init buckets : 0 < buckets -> dreach cost cc (dv_empty buckets)
| dr_step x o x' : dreach cost cc x ->
    (match o with DPi => True | DAnd a b => valid x.1 a /\ valid x.1 b | DPo f => valid x.1 f end) ->
    dstep cost cc o x = Some (tt, x') -> dreach cost cc x'.
