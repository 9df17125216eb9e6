(* Model of include/operations/algorithms/ref_deref.hpp and of deref_cut / ref_cut
   of include/operations/optimization/rewrite.hpp:252-292.

   The value fields of the nodes (uint32_t, data[0].h2) are a function from node
   indices; accesses are guarded by the bounds of the node vector.  The results
   (int, uint32_t) are unbounded numbers.  The recursion is given the number of
   nodes plus one as fuel, enough for every acyclic network. *)
From Verif Require Import Base Aig AigSem Topo Clean.

Definition values := nat -> N.
Definition setv {A} (v : nat -> A) (n : nat) (x : A) : nat -> A := fun k => if decide (k = n) then x else v k.

Section cone.
Variable s : aig.
(* where the recursion ends: leaves of the cut, or term_fn *)
Variable stop : nat -> option bool.

(* rewrite.hpp:252-270, ref_deref.hpp:27-41: decrement every fanin, continue
   below those that reach zero *)
Fixpoint deref (fuel : nat) (n : nat) : M values nat := fun v =>
  match fuel with
  | O => None
  | S fuel' =>
      e ← stop n;
      if e : bool then Some (0, v)
      else
        fs ← aig_fan s n;
        foldM (fun res c v =>
          _ ← ks s !! c;
          let v1 := setv v c (u32 (v c + (2 ^ 32 - 1))) in
          if decide (v1 c = 0%N) then '(r, v2) ← deref fuel' c v1; Some (res + r, v2)
          else Some (res, v1)) 1 fs v
  end.

(* rewrite.hpp:272-290 tests the new value for 1, ref_deref.hpp:43-57 the old one
   for 0 *)
Fixpoint ref (fuel : nat) (n : nat) : M values nat := fun v =>
  match fuel with
  | O => None
  | S fuel' =>
      e ← stop n;
      if e : bool then Some (0, v)
      else
        fs ← aig_fan s n;
        foldM (fun res c v =>
          _ ← ks s !! c;
          let v1 := setv v c (u32 (v c + 1)) in
          if decide (v1 c = 1%N) then '(r, v2) ← ref fuel' c v1; Some (res + r, v2)
          else Some (res, v1)) 1 fs v
  end.
End cone.

(* rewrite.hpp:253, 273: std::find in the leaves *)
Definition at_leaves (leaves : list nat) (n : nat) : option bool := Some (bool_decide (n ∈ leaves)).
Definition deref_cut (s : aig) (n : nat) (leaves : list nat) : M values nat := deref s (at_leaves leaves) (S (size s)) n.
Definition ref_cut (s : aig) (n : nat) (leaves : list nat) : M values nat := ref s (at_leaves leaves) (S (size s)) n.

(* ref_deref.hpp:59-71: term_fn is is_constant || is_pi *)
Definition term_fn (s : aig) (n : nat) : option bool := if decide (n = 0) then Some true else is_pi s n.
Definition deref_node_recursive (s : aig) (n : nat) : M values nat := deref s (term_fn s) (S (size s)) n.
Definition ref_node_recursive (s : aig) (n : nat) : M values nat := ref s (term_fn s) (S (size s)) n.

(* ref_deref.hpp:102-118 *)
Definition derefed_size (s : aig) (n : nat) : M values nat :=
  let! s1 := deref_node_recursive s n in
  let! s2 := ref_node_recursive s n in
  if decide (s1 = s2) then ret s1 else fail.
Definition refed_size (s : aig) (n : nat) : M values nat :=
  let! s1 := ref_node_recursive s n in
  let! s2 := deref_node_recursive s n in
  if decide (s1 = s2) then ret s1 else fail.

(* ref_deref.hpp:76-100 ref_node_recursive_contained; nothing is ever added to the
   first component, and the counts are decremented *)
Fixpoint ref_contained (s : aig) (fuel : nat) (n r : nat) : M values (nat * bool) := fun v =>
  match fuel with
  | O => None
  | S fuel' =>
      e ← term_fn s n;
      if e : bool then Some ((0, false), v)
      else
        fs ← aig_fan s n;
        foldM (fun (res : nat * bool) c v =>
          _ ← ks s !! c;
          let b := res.2 || bool_decide (c = r) in
          let v1 := setv v c (u32 (v c + (2 ^ 32 - 1))) in
          if decide (v1 c = 0%N) then '((x, y), v2) ← ref_contained s fuel' c r v1; Some ((res.1 + x, b || y), v2)
          else Some ((res.1, b), v1)) (0, bool_decide (n = r)) fs v
  end.
Definition ref_node_recursive_contained (s : aig) (n r : nat) : M values (nat * bool) := ref_contained s (S (size s)) n r.

(* ---- specification ---- *)
(* number of references node x makes to node y, and those of a set of nodes *)
Definition edges (s : aig) (y x : nat) : nat :=
  match ks s !! x with
  | Some k => if decide (x = 0) then 0 else gate_refs y k
  | None => 0
  end.
Definition krefs (s : aig) (E : list nat) (y : nat) : nat := sum_list (map (edges s y) E).

(* E is the fanout-free cone of n above the nodes that satisfy [halt]: n, and the
   referenced nodes all of whose references come from inside *)
Record ffc (s : aig) (halt : nat -> bool) (n : nat) (E : list nat) : Prop := {
  ffc_nodup : NoDup E;
  ffc_root : n ∈ E;
  ffc_in : forall y, y <> n -> (y ∈ E <->
    halt y = false /\ (exists x, fanin s x y) /\ (forall x, fanin s x y -> x ∈ E) /\
    (forall f, f ∈ outs s -> sidx f <> y))
}.

(* What happens while the candidates for one cut are evaluated (rewrite.hpp:107-
   129): new nodes are created, candidates are referenced and dereferenced. *)
Inductive trial (leaves : list nat) : aig -> values -> aig -> values -> Prop :=
| trial_done s v : trial leaves s v s v
| trial_grow s v s1 s2 v2 : network s1 -> (exists t, ks s1 = ks s ++ t) -> (N.of_nat (size s1) < 2 ^ 30)%N ->
    trial leaves s1 v s2 v2 -> trial leaves s v s2 v2
| trial_cand s v n c1 v1 c2 v2 s' v' : n < size s -> ref_cut s n leaves v = Some (c1, v1) ->
    deref_cut s n leaves v1 = Some (c2, v2) -> trial leaves s v2 s' v' -> trial leaves s v s' v'.
