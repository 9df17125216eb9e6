(* Model of the cut and cone computation of
   include/operations/optimization/refactor.hpp.

   Levels and costs are natural numbers; INT_MAX as a cost or a level is [None].
   The visited fields of the nodes are a function. *)
From Verif Require Import Base Aig AigSem Topo Clean Tt RefDeref.

Fixpoint ofold {A B} (f : A -> B -> option A) (a : A) (l : list B) : option A :=
  match l with
  | [] => Some a
  | x :: r => a' ← f a x; ofold f a' r
  end.

(* ---- depths ---- *)
Definition depths := nat -> option nat.
(* refactor.hpp:124-148 compute_depth_info: _depth_map and _depth_max; the entry of
   a child that is not in the map is read through end() *)
Definition child_depths (m : depths) (fs : list nat) : option nat :=
  ofold (fun mx c => d ← m c; Some (if decide (mx < d + 1) then d + 1 else mx)) 0 fs.
(* std::map::insert keeps an entry that is there *)
Definition insert_new {A} (m : nat -> option A) (n : nat) (x : A) : nat -> option A :=
  match m n with Some _ => m | None => setv m n (Some x) end.
Definition depth_step (s : aig) (x : depths * nat) (n : nat) : option (depths * nat) :=
  pi ← is_pi s n;
  let m1 := if pi : bool then insert_new x.1 n 0 else x.1 in
  fs ← aig_fan s n;
  d ← child_depths m1 fs;
  Some (insert_new m1 n d, if decide (x.2 < d) then d else x.2).
Definition compute_depth_info (s : aig) : option (depths * nat) :=
  l ← aig_topo s; ofold (depth_step s) (fun _ => None, 0) l.

(* ---- the cut ---- *)
(* visited nodes and _leaves_nodes (the list _visited_nodes is cleared before it is
   read) *)
Definition cutst := ((nat -> bool) * list nat)%type.

(* refactor.hpp:285-303 compute_leaf_cost; aig_network.hpp: max_fanin_size is 2 *)
Definition leaf_cost (s : aig) (vis : nat -> bool) (leaf : nat) : option (option nat) :=
  if vis leaf then
    k ← ks s !! leaf;
    if decide (k.1 = k.2) then Some None
    else
      let c := (if vis (sidx k.1) then 0 else 1) + (if vis (sidx k.2) then 0 else 1) in
      if decide (c < 2) then Some (Some c)
      else f ← fanout_size s leaf; Some (if decide (2 < f)%N then None else Some c)
  else None.

Definition cost_lt (a b : option nat) : bool :=
  match a, b with
  | Some x, Some y => x <? y
  | Some _, None => true
  | None, _ => false
  end.
Definition level_gt (l : nat) (b : option nat) : bool := match b with Some x => x <? l | None => false end.
(* refactor.hpp:232-249: best cost, best fanin, its level *)
Fixpoint best_leaf (s : aig) (vis : nat -> bool) (depth : depths) (ls : list nat) (best : option nat * nat * option nat) :
    option (option nat * nat * option nat) :=
  match ls with
  | [] => Some best
  | leaf :: r =>
      c ← leaf_cost s vis leaf;
      l ← depth leaf;
      let best' :=
        if cost_lt c best.1.1 || (bool_decide (c = best.1.1) && level_gt l best.2) then (c, leaf, Some l) else best in
      if decide (best'.1.1 = Some 0) then Some best' else best_leaf s vis depth r best'
  end.
(* refactor.hpp:262-270 *)
Fixpoint erase_first (x : nat) (l : list nat) : list nat :=
  match l with
  | [] => []
  | y :: r => if decide (y = x) then r else y :: erase_first x r
  end.
(* refactor.hpp:273-279 *)
Definition add_leaf (st : cutst) (c : nat) : cutst :=
  if st.1 c then st else (setv st.1 c true, st.2 ++ [c]).
(* refactor.hpp:225-283 one_level_build_cut; [Some None]: returns false *)
Definition one_level_build_cut (s : aig) (depth : depths) (limit : nat) (st : cutst) : option (option cutst) :=
  '(bc, bf, _) ← best_leaf s st.1 depth st.2 (None, 0, None);
  if decide (bf = 0) then Some None
  else
    c ← bc;
    if decide (c < 3) then
      if decide (limit < length st.2 - 1 + c) then Some None
      else
        fs ← aig_fan s bf;
        let st' := foldl add_leaf (st.1, erase_first bf st.2) fs in
        if decide (length st'.2 <= limit) then Some (Some st') else None
    else None.
Fixpoint build_cut (s : aig) (depth : depths) (limit fuel : nat) (st : cutst) : option cutst :=
  match fuel with
  | O => None
  | S fuel' =>
      r ← one_level_build_cut s depth limit st;
      match r with
      | None => Some st
      | Some st' => build_cut s depth limit fuel' st'
      end
  end.
(* refactor.hpp:200-220 compute_reconvergence_driven_cut: the leaves *)
Definition reconvergence_driven_cut (s : aig) (depth : depths) (limit root : nat) : option (list nat) :=
  fs ← aig_fan s root;
  let vis := foldl (fun v c => setv v c true) (setv (fun _ => false) root true) fs in
  st ← build_cut s depth limit (S (S (size s))) (vis, fs);
  if decide (length st.2 <= limit) then Some st.2 else None.

(* ---- the cone ---- *)
(* refactor.hpp:327-339 dfs_collect_cone_nodes: the set of nodes and the order in
   which they are collected *)
Fixpoint dfs_collect (s : aig) (fuel n : nat) (st : list nat * list nat) : option (list nat * list nat) :=
  match fuel with
  | O => None
  | S fuel' =>
      pi ← is_pi s n;
      if bool_decide (n ∈ st.1) || pi then Some st
      else
        fs ← aig_fan s n;
        st' ← ofold (fun st c => dfs_collect s fuel' c st) st fs;
        Some (n :: st'.1, st'.2 ++ [n])
  end.
(* refactor.hpp:308-322 collect_cone_nodes *)
Definition collect_cone_nodes (s : aig) (leaves : list nat) (root : nat) : option (list nat) :=
  st ← dfs_collect s (S (size s)) root (leaves, []); Some st.2.

(* refactor.hpp:344-415 compute_cone_tt.  Lines 348-366: bit i of the table of a
   leaf is set when i has a one at a position of the leaf; counting to 2^31 and
   beyond overflows.  Every leaf gets a table because 2^n > 1. *)
Definition leaf_table (leaves : list nat) (x : nat) : option tt :=
  if decide (x ∈ leaves)
  then Some (tt_tab (length leaves) (fun i => existsb (fun k => bool_decide (leaves !! k = Some x) && Nat.testbit i k) (seq 0 (length leaves))))
  else None.
Definition cone_step (s : aig) (m : nat -> option tt) (n : nat) : option (nat -> option tt) :=
  pi ← is_pi s n;
  if pi : bool then Some m
  else
    k ← ks s !! n;
    t0 ← m (sidx k.1);
    t1 ← m (sidx k.2);
    if decide (nv t0 = nv t1) then
      let t := tt_and (tt_not_if t0 (scompl k.1)) (tt_not_if t1 (scompl k.2)) in
      Some (insert_new m n t)
    else None.
Definition compute_cone_tt (s : aig) (leaves cone : list nat) (root : nat) : option tt :=
  if decide (length leaves <= 30) then
    m ← ofold (cone_step s) (leaf_table leaves) cone;
    m root
  else None.

(* ---- specification ---- *)
(* n is determined by the leaves: going down from n every path meets a leaf *)
Inductive covered (s : aig) (leaves : list nat) : nat -> Prop :=
| cov_leaf n : n ∈ leaves -> covered s leaves n
| cov_gate n : is_gate s n -> (forall m, fanin s n m -> covered s leaves m) -> covered s leaves n.

(* number of gates on the longest path that goes down from n *)
Definition longest (s : aig) (n d : nat) : Prop :=
  (exists m, nsteps (fanin s) d n m) /\ forall e, (exists m, nsteps (fanin s) e n m) -> e <= d.
