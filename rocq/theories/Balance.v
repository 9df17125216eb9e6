(* Model of include/operations/optimization/and_balance.hpp (balance_and).
   aig_network.hpp:801-805: is_xor is constantly false, so the XOR branches of
   the code are left out.  The levels of the old network (line 38) are computed
   but never read and are left out as well. *)
From stdpp Require Import sorting.
From Verif Require Import Base Aig AigSem Clean Depth Cnf.

(* aig_network.hpp:790-793 *)
Definition is_and (s : aig) (n : nat) : option bool :=
  if decide (n = 0) then Some false else c ← is_ci s n; Some (negb c).

(* aig_network.hpp:141-144 signal::operator< compares the data words.  std::sort with a
   total order on the elements has one possible result; the one of a merge sort *)
Definition lit_le (a b : signal) : Prop := sdata a <= sdata b.
#[global] Instance lit_le_dec a b : Decision (lit_le a b) := decide (sdata a <= sdata b).

Section balance.
(* std::sort of (level, signal) pairs with the comparator of lines 180-195; it
   may order x and !x either way, so the sorting function is a parameter *)
Variable srt : list (nat * signal) -> list (nat * signal).

(* and_balance.hpp:118-149 balance_unify, after the sort: None stands for the
   cleared vector of a contradiction *)
Fixpoint unify_scan (l : list signal) : option (list signal) :=
  match l with
  | [] => Some []
  | x :: r =>
    match r with
    | [] => Some [x]
    | y :: _ =>
      if decide (x = snot y) then None
      else if decide (x = y) then unify_scan r
      else l' ← unify_scan r; Some (x :: l')
    end
  end.
Definition balance_unify (l : list signal) : list signal :=
  default [] (unify_scan (merge_sort lit_le l)).

(* and_balance.hpp:151-173 get_balance_cone_rec; lines 156-158 read the type of
   the root, which line 106 asserts to be an AND *)
Definition cone_stop (s : aig) (root : nat) (f : signal) (super : list signal) : option bool :=
  if decide (f = Sig root false) then Some false
  else if scompl f then Some true
  else
    pi ← is_pi s (sidx f);
    if pi : bool then Some true
    else
      fs ← fanout_size s (sidx f);
      Some ((1 <? fs)%N || (10000 <? N.of_nat (length super))%N).
Fixpoint cone_rec (s : aig) (fuel root : nat) (f : signal) (super : list signal) : option (list signal) :=
  match fuel with
  | O => None
  | S fuel' =>
    stop ← cone_stop s root f super;
    if stop : bool then Some (super ++ [f])
    else if scompl f then None
    else
      a ← is_and s (sidx f);
      if a : bool then
        k ← ks s !! sidx f;
        super1 ← cone_rec s fuel' root k.1 super;
        cone_rec s fuel' root k.2 super1
      else None
  end.

(* and_balance.hpp:104-116 get_balance_cone *)
Definition get_balance_cone (s : aig) (n : nat) : option (list signal) :=
  a ← is_and s n;
  if a : bool then
    l ← cone_rec s (S (size s)) n (Sig n false) [];
    Some (balance_unify l)
  else None.

(* levels of the new network *)
Definition lev_of (x : aig * dview) (f : signal) : option nat := level x.2 (sidx f).

(* and_balance.hpp:224-253 balance_find_left: [scan_left x lr super c] looks at
   the positions c-1, c-2, ... *)
Fixpoint scan_left (x : aig * dview) (lr : nat) (super : list signal) (c : nat) : option nat :=
  match c with
  | O => Some 0
  | S c' =>
    f ← super !! c';
    l ← lev_of x f;
    if decide (l = lr) then scan_left x lr super c' else Some (S c')
  end.
Definition balance_find_left (x : aig * dview) (super : list signal) : option nat :=
  if decide (length super < 3) then Some 0
  else
    right ← super !! (length super - 2);
    lr ← lev_of x right;
    scan_left x lr super (length super - 2).

(* exchange two positions *)
Definition exchange (i j : nat) (l : list signal) : option (list signal) :=
  a ← l !! i; b ← l !! j; Some (<[j := a]> (<[i := b]> l)).

(* and_balance.hpp:272-313: the loop over i = c-1, c-2, ..., lb *)
Fixpoint permute_loop (x : aig * dview) (lb right : nat) (node1 node2 : signal) (super : list signal) (c : nat)
    : option (list signal) :=
  match c with
  | O => Some super
  | S i =>
    if decide (i < lb) then Some super
    else
      node3 ← super !! i;
      if decide (sidx node3 = 0) then exchange i right super
      else if decide (sidx node1 = sidx node3) then
        (if decide (sidx node2 = sidx node3) then Some super else exchange i right super)
      else
        found ← find_and node1 node3 x.1;
        if found : bool then
          (if decide (sidx node2 = sidx node3) then Some super else exchange i right super)
        else permute_loop x lb right node1 node2 super i
  end.
(* and_balance.hpp:255-314 balance_permute *)
Definition balance_permute (x : aig * dview) (super : list signal) (lb : nat) : option (list signal) :=
  let right := length super - 2 in
  if decide (right < lb) then None
  else if decide (lb = right) then Some super
  else
    node1 ← super !! (right + 1);
    node2 ← super !! right;
    if decide (sidx node1 = 0 \/ sidx node2 = 0 \/ sidx node1 = sidx node2) then Some super
    else permute_loop x lb right node1 node2 super (S right).

(* and_balance.hpp:338-349: move the element at position i to the left *)
Fixpoint bubble (x : aig * dview) (i : nat) (super : list signal) : option (list signal) :=
  match i with
  | O => Some super
  | S j =>
    node0 ← super !! S j;
    node1 ← super !! j;
    l0 ← lev_of x node0;
    l1 ← lev_of x node1;
    if decide (l0 <= l1) then Some super
    else l' ← exchange (S j) j super; bubble x j l'
  end.
(* and_balance.hpp:316-352 push_unique_by_level *)
Definition push_unique_by_level (x : aig * dview) (super : list signal) (f : signal) : option (list signal) :=
  if decide (f ∈ super) then Some super
  else bubble x (length super) (super ++ [f]).

(* and_balance.hpp:198-222: the while loop of build_super.  The depth view of
   the new network counts every AND as 1 and no inverters. *)
Fixpoint super_loop (fuel : nat) (super : list signal) : M (aig * dview) signal :=
  match super with
  | [] => ret (get_constant false)
  | [f] => ret f
  | _ =>
    match fuel with
    | O => fail
    | S fuel' =>
      let! x := get in
      let! lb := lift (balance_find_left x super) in
      let! super1 := lift (balance_permute x super lb) in
      let! node0 := lift (super1 !! (length super1 - 1)) in
      let! node1 := lift (super1 !! (length super1 - 2)) in
      let rest := take (length super1 - 2) super1 in
      let! f := dv_and unit_cost false node0 node1 in
      let! x1 := get in
      let! super2 := lift (push_unique_by_level x1 rest f) in
      super_loop fuel' super2
    end
  end.

(* and_balance.hpp:175-222 build_super *)
Definition build_super (super : list signal) : M (aig * dview) signal :=
  if decide (length super <= 1) then fail
  else
    let! x := get in
    let! keyed := lift (opt_map (fun f => l ← lev_of x f; Some (l, f)) super) in
    super_loop (length super) (map snd (srt keyed)).

(* the new network with its depth view, and _old2new with None for SIGNAL_NULL *)
Definition bstate : Type := (aig * dview) * list (option signal).
Definition on_new {A} (m : M (aig * dview) A) : M bstate A := fun x =>
  '(a, y) ← m x.1; Some (a, (y, x.2)).
Definition memo_get (n : nat) : M bstate (option signal) := fun x =>
  o ← x.2 !! n; Some (o, x).
Definition memo_set (n : nat) (f : signal) : M bstate unit := fun x =>
  _ ← x.2 !! n; Some (Datatypes.tt, (x.1, <[n := Some f]> x.2)).

(* and_balance.hpp:65-102 balance_rec *)
Fixpoint balance_rec (s : aig) (fuel n : nat) : M bstate signal :=
  match fuel with
  | O => fail
  | S fuel' =>
    let! o := memo_get n in
    match o with
    | Some f => ret f
    | None =>
      let! super := lift (get_balance_cone s n) in
      match super with
      | [] => memo_set n (get_constant false) ;;; ret (get_constant false)
      | _ =>
        let! super1 := mapM (fun f => let! g := balance_rec s fuel' (sidx f) in ret (sxor g (scompl f))) super in
        match super1 with
        | [g] => ret g
        | _ => let! g := on_new (build_super super1) in memo_set n g ;;; ret g
        end
      end
    end
  end.

(* and_balance.hpp:37-48: the constructor *)
Definition balance_init (nb : nat) (s : aig) : option bstate :=
  m0 ← match repeat None (size s) with [] => None | _ :: r => Some (Some (get_constant false) :: r) end;
  '(_, x) ← foldM (fun _ pi => let! f := on_new dv_pi in memo_set pi f) Datatypes.tt (pis s) (dv_empty nb, m0);
  v ← update_levels unit_cost false x.1.1 (repeat 0 (size x.1.1)) 0;
  Some ((x.1.1, v), x.2).

(* and_balance.hpp:52-62 run, 360-365 balance_and *)
Definition balance_and (nb : nat) (s : aig) : option aig :=
  x ← balance_init nb s;
  '(_, y) ← foldM (fun _ o =>
      let! f := balance_rec s (S (size s)) (sidx o) in
      on_new (dv_po (sxor f (scompl o))) ;;; ret Datatypes.tt) Datatypes.tt (pos s) x;
  cleanup_dangling nb y.1.1 false false.
End balance.

(* ---- specification ---- *)
(* std::sort with the comparator of build_super: higher level first, then
   higher index first *)
Definition level_order (a b : nat * signal) : Prop :=
  b.1 < a.1 \/ (a.1 = b.1 /\ sidx (b.2) <= sidx (a.2)).
Definition sorts_by_level (srt : list (nat * signal) -> list (nat * signal)) : Prop :=
  forall l, Permutation l (srt l) /\ Sorting.Sorted.Sorted level_order (srt l).
