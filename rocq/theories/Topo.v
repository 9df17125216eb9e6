(* Model of include/database/views/topo_view.hpp (the variant for networks that
   are not known to be sorted, lines 76-246), for any network given by the
   nodes its foreach_fanin visits. *)
From Verif Require Import Base.

Section topo.
(* foreach_fanin: the nodes of the fanins of a node, in order *)
Variable fan : nat -> option (list nat).
(* trav_id() after the two increments of lines 190-191.  The traversal number
   is a [nat]; its wrap-around at 2^32 is not modelled. *)
Variable tid : nat.

(* visited field of every node, and topo_order *)
Definition tst : Type := list nat * list nat.

(* topo_view.hpp:229-252 create_topo_rec; the assertion of line 236 is [None] *)
Fixpoint topo_rec (fuel : nat) (n : nat) : M tst unit :=
  match fuel with
  | O => fail
  | S fuel' => fun x =>
      v ← x.1 !! n;
      if decide (v = tid) then Some (tt, x)
      else if decide (v = tid - 1) then None
      else
        cs ← fan n;
        '(_, x1) ← mapM (topo_rec fuel') cs (<[n := tid - 1]> x.1, x.2);
        Some (tt, (<[n := tid]> x1.1, x1.2 ++ [n]))
  end.

(* topo_view.hpp:195-211: constants and inputs that are not visited yet *)
Definition topo_source (n : nat) : M tst unit := fun x =>
  v ← x.1 !! n;
  if decide (v = tid) then Some (tt, x)
  else Some (tt, (<[n := tid]> x.1, x.2 ++ [n])).

(* topo_view.hpp:213-226: the test of lines 215/221 is repeated by create_topo_rec *)
Definition topo_root (size : nat) (n : nat) : M tst unit := fun x =>
  v ← x.1 !! n;
  if decide (v = tid) then Some (tt, x) else topo_rec (S size) n x.

(* topo_view.hpp:188-227 update_topo: sources are the constant nodes and the
   combinational inputs, roots the drivers of the combinational outputs (or the
   start signal).  The recursion is at most as deep as there are nodes. *)
Definition topo_run (size : nat) (sources roots : list nat) : M tst unit :=
  mapM topo_source sources ;;;
  mapM (topo_root size) roots ;;;
  ret tt.
End topo.

Definition topo_view (fan : nat -> option (list nat)) (size : nat) (sources roots : list nat)
    (marks : list nat) (trav : nat) : option (list nat) :=
  '(_, x) ← topo_run fan (trav + 2) size sources roots (marks, []);
  Some x.2.

(* ---- specification ---- *)
Definition edge (fan : nat -> option (list nat)) (n c : nat) : Prop :=
  exists l, fan n = Some l /\ c ∈ l.

(* a finite acyclic graph on the nodes below [size] *)
Record dag (fan : nat -> option (list nat)) (size : nat) : Prop := {
  dag_total : forall n, n < size -> is_Some (fan n);
  dag_closed : forall n c, n < size -> edge fan n c -> c < size;
  dag_acyclic : exists rank : nat -> nat, forall n c, n < size -> edge fan n c -> rank c < rank n
}.

(* [l] lists [sources] first and then exactly the nodes reachable from [roots],
   each node once and after its fanins *)
Record topo_order (fan : nat -> option (list nat)) (sources roots l : list nat) : Prop := {
  to_sources : exists rest, l = sources ++ rest;
  to_nodup : NoDup l;
  to_elem : forall n, n ∈ l <-> n ∈ sources \/ exists r, r ∈ roots /\ rtc (edge fan) r n;
  to_after : forall i n c, l !! i = Some n -> edge fan n c -> exists j, j < i /\ l !! j = Some c
}.
