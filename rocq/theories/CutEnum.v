(* Model of include/database/cut/cut_enumeration.hpp: network_cuts and
   cut_enumeration_impl.  ComputeTruth is the flag [truth]; the order of cuts
   and the update of the cut data are parameters (template parameter CutData). *)
From Verif Require Import Base Aig AigSem Tt TtCache Cut.

(* cut_enumeration.hpp:30-63 (cut_limit - 1 is computed in uint32_t) *)
Record cut_ps := CutPs { cut_size : nat; cut_limit : N; minimize : bool }.

(* cut_enumeration.hpp:206-219; the positions fit into uint8_t because a cut has
   few leaves *)
Fixpoint find_from (pos : nat) (sup : list nat) (x : nat) : nat :=
  match sup with
  | [] => pos
  | y :: r => if decide (y = x) then pos else find_from (S pos) r x
  end.
Fixpoint tt_support (itp : nat) (sub sup : list nat) : list nat :=
  match sub with
  | [] => []
  | x :: r => let p := find_from itp (drop itp sup) x in p :: tt_support p r sup
  end.

(* cut_enumeration.hpp:479-484 *)
Fixpoint pick (leaves supp : list nat) : option (list nat) :=
  match supp with
  | [] => Some []
  | i :: r => l ← leaves !! i; ls ← pick leaves r; Some (l :: ls)
  end.

Section enum.
Context {D : Type}.
Variable truth : bool.
Variable lt : cut D -> cut D -> bool.
(* cut_enumeration.hpp:113-124 cut_enumeration_update_cut::apply; it may compute
   the data of the new cut from the cuts found so far *)
Variable upd : list (cutset D) -> nat -> cut D -> D.
Variable d0 : D.        (* default-constructed data *)
Variable cap max : nat. (* max_cut_size = 7, max_cut_num = 12 *)

Definition st : Type := list (cutset D) * cache.

(* cut_enumeration.hpp:162-171 *)
Definition st_init (size : nat) : st :=
  (repeat (cs_new max d0) size,
   (cache_insert (tt_var 1 0) (cache_insert (tt_const 0 false) cache_empty).2).2).

(* cut_enumeration.hpp:234-252 *)
Definition add_leaf_cut (n : nat) (l : list nat) (f : N) : M st unit := fun x =>
  cs ← x.1 !! n;
  cs' ← add_cut cap l cs;
  c ← arr cs' !! cn cs;
  let cs'' := if truth then CS (<[cn cs := Cut (lvs c) (sg c) f (dat c)]> (arr cs')) (cn cs') (clen cs') else cs' in
  Some (Datatypes.tt, (<[n := cs'']> x.1, x.2)).
Definition add_zero_cut (n : nat) : M st unit := add_leaf_cut n [] 0.
Definition add_unit_cut (n : nat) : M st unit := add_leaf_cut n [n] 2.

(* cut_enumeration.hpp:456-466: the table of a child's cut over the leaves of res *)
Definition child_tt (c : cut D) (res : list nat) (ca : cache) : option Tt.tt :=
  t ← cache_get (fid c) ca;
  t' ← tt_extend t (length res);
  tt_expand t' (tt_support 0 (lvs c) res).

(* cut_enumeration.hpp:453-491 with aig_network.hpp:1170-1183 compute *)
Definition compute_truth_table (s : aig) (ps : cut_ps) (n : nat) (c1 c2 res : cut D) (ca : cache)
    : option (cut D * cache) :=
  k ← ks s !! n;
  t1 ← child_tt c1 (lvs res) ca;
  t2 ← child_tt c2 (lvs res) ca;
  let t := tt_and (tt_not_if t1 (scompl k.1)) (tt_not_if t2 (scompl k.2)) in
  if minimize ps then
    let '(t', supp) := min_base t in
    if decide (length supp = length (lvs res)) then
      let '(f, ca') := cache_insert t' ca in
      Some (Cut (lvs res) (sg res) f (dat res), ca')
    else
      t'' ← tt_shrink t' (length supp);
      leaves ← pick (lvs res) supp;
      res' ← set_leaves cap leaves res;
      let '(f, ca') := cache_insert t'' ca in
      Some (Cut (lvs res') (sg res') f (dat res'), ca')
  else
    let '(f, ca') := cache_insert t ca in
    Some (Cut (lvs res) (sg res) f (dat res), ca').

(* cut_enumeration.hpp:411-430: one pair of cuts; nc is new_cut *)
Definition merge_pair (s : aig) (ps : cut_ps) (n : nat) (c1 c2 nc : cut D) : M st (cut D) := fun x =>
  r ← merge cap c1 c2 nc (cut_size ps);
  match r with
  | None => Some (nc, x)
  | Some nc1 =>
      rcuts ← x.1 !! n;
      if is_dominated rcuts nc1 then Some (nc1, x)
      else
        '(nc2, ca) ← (if truth then compute_truth_table s ps n c1 c2 nc1 x.2 else Some (nc1, x.2));
        let nc3 := Cut (lvs nc2) (sg nc2) (fid nc2) (upd x.1 n nc2) in
        rcuts' ← cs_insert lt cap nc3 rcuts;
        Some (nc3, (<[n := rcuts']> x.1, ca))
  end.

(* cut_enumeration.hpp:376-443 merge_cuts2 *)
Definition merge_cuts2 (s : aig) (ps : cut_ps) (n : nat) : M st unit := fun x =>
  k ← ks s !! n;
  lcuts0 ← x.1 !! sidx k.1;
  lcuts1 ← x.1 !! sidx k.2;
  rcuts ← x.1 !! n;
  '(_, x1) ← foldM (fun nc c1 => foldM (fun nc c2 => merge_pair s ps n c1 c2 nc) nc (vis lcuts1))
               (Cut [] 0 0 d0) (vis lcuts0) (<[n := cs_clear rcuts]> x.1, x.2);
  rcuts1 ← x1.1 !! n;
  rcuts2 ← limit ((cut_limit ps + 2 ^ 32 - 1) mod 2 ^ 32) rcuts1;
  first ← arr rcuts2 !! 0;
  let x2 := (<[n := rcuts2]> x1.1, x1.2) in
  if decide (1 < cn rcuts2 \/ 1 < length (lvs first)) then add_unit_cut n x2
  else Some (Datatypes.tt, x2).

(* cut_enumeration.hpp:339-364 run, for one node; dead nodes are skipped by
   foreach_node (aig_network.hpp:1004-1012) *)
Definition enum_node (s : aig) (ps : cut_ps) (n : nat) : M st unit :=
  let! dead := lift (is_dead s n) in
  if dead : bool then ret Datatypes.tt
  else if decide (n = 0) then add_zero_cut n
  else let! pi := lift (is_pi s n) in
       if pi : bool then add_unit_cut n else merge_cuts2 s ps n.

(* cut_enumeration.hpp:504-521, 335 *)
Definition cut_enumeration (s : aig) (ps : cut_ps) : option st :=
  if decide (cut_limit ps < N.of_nat max)%N then
    '(_, x) ← mapM (enum_node s ps) (seq 0 (size s)) (st_init (size s));
    Some x
  else None.
End enum.

(* ---- specification ---- *)
(* [path s n p m]: p lists the nodes of a path from n down to m *)
Inductive path (s : aig) : nat -> list nat -> nat -> Prop :=
| path_nil n : path s n [n] n
| path_cons n m p i : fanin s n m -> path s m p i -> path s n (n :: p) i.

(* every path from n down to a combinational input meets a leaf *)
Definition is_cut (s : aig) (n : nat) (leaves : list nat) : Prop :=
  forall p i, path s n p i -> i ∈ ins s -> exists l, l ∈ p /\ l ∈ leaves.

(* the function of node n in terms of the nodes in leaves is t *)
Definition cut_function (s : aig) (n : nat) (leaves : list nat) (t : Tt.tt) : Prop :=
  nv t = length leaves /\
  forall env v, valuation s env v ->
    tt_eval t (fun k => match leaves !! k with Some l => v l | None => false end) = v n.
