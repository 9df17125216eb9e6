(* Model of cand_equiv_classes and of the resimulation of choice_computation
   (include/operations/algorithms/choice_computation.hpp:47-368, 804-1062): the
   candidate classes come from random simulation and are refined with the
   counterexamples of the solver.

   [rnd k] is the k-th value of the random number generator, and may be anything.
   AIG_NULL is [None].  Words are numbers below 2^64.  The table of
   Abc_PrimeCudd is unbounded (no overflow of i * i).  A traversal number is
   never met in a visited field before the traversal, so that visited is the
   list of nodes met in this traversal; MarkA is the list of collected roots. *)
From Coq Require Import Arith.Factorial.
From stdpp Require Import sorting.
From Verif Require Import Base Aig AigSem Cnf Choice ChoiceSat ChoiceCompute.

(* 334-359 Abc_PrimeCudd: the inner loop from an odd i, then the outer one *)
Fixpoint has_divisor (fuel i p : nat) : option bool :=
  match fuel with
  | O => None
  | S fuel' =>
      if decide (i * i <= p) then
        if decide (p mod i = 0) then Some true else has_divisor fuel' (i + 2) p
      else Some false
  end.
Fixpoint prime_loop (fuel p : nat) : option nat :=
  match fuel with
  | O => None
  | S fuel' =>
      if Nat.odd p then
        d ← has_divisor (S p) 3 p;
        if d : bool then prime_loop fuel' (S p) else Some p
      else prime_loop fuel' (S p)
  end.
Definition prime_cudd (p : nat) : option nat := prime_loop (fact p + 2) p.

(* 254-268 s_FPrimes *)
Definition fprimes : list N :=
  [1009; 1049; 1093; 1151; 1201; 1249; 1297; 1361; 1427; 1459;
   1499; 1559; 1607; 1657; 1709; 1759; 1823; 1877; 1933; 1997;
   2039; 2089; 2141; 2213; 2269; 2311; 2371; 2411; 2467; 2543;
   2609; 2663; 2699; 2741; 2797; 2851; 2909; 2969; 3037; 3089;
   3169; 3221; 3299; 3331; 3389; 3461; 3517; 3557; 3613; 3671;
   3719; 3779; 3847; 3907; 3943; 4013; 4073; 4129; 4201; 4243;
   4289; 4363; 4441; 4493; 4549; 4621; 4663; 4729; 4793; 4871;
   4933; 4973; 5021; 5087; 5153; 5227; 5281; 5351; 5417; 5471;
   5519; 5573; 5651; 5693; 5749; 5821; 5861; 5923; 6011; 6073;
   6131; 6199; 6257; 6301; 6353; 6397; 6481; 6563; 6619; 6689;
   6737; 6803; 6863; 6917; 6977; 7027; 7109; 7187; 7237; 7309;
   7393; 7477; 7523; 7561; 7607; 7681; 7727; 7817; 7877; 7933;
   8011; 8039; 8059; 8081; 8093; 8111; 8123; 8147]%N.

(* std::minstd_rand0, the generator of the source *)
Fixpoint minstd_state (k : nat) : N :=
  match k with O => 1 | S k' => (minstd_state k' * 16807) mod 2147483647 end%N.
Definition minstd (k : nat) : N := minstd_state (S k).

(* _id2class and _reprs *)
Record classes := Classes { c_ids : list (list nat); c_reprs : list nat }.

(* ~x on 64 bits *)
Definition wnot (x : N) : N := N.lxor x (N.ones 64).

(* 120-149 refine_one_class; [same] compares two nodes *)
Fixpoint split_class (same : nat -> nat -> option bool) (r : nat) (l : list nat) : option (list nat * list nat) :=
  match l with
  | [] => Some ([], [])
  | n :: l' =>
      b ← same r n;
      '(old, new) ← split_class same r l';
      Some (if b : bool then (n :: old, new) else (old, n :: new))
  end.
Definition set_reprs (l : list nat) (r : nat) (rs : list nat) : list nat := foldl (fun rs n => <[n := r]> rs) rs l.
Fixpoint refine_one_class (fuel : nat) (same : nat -> nat -> option bool) (recursively : bool) (r : nat) (c : classes) : option (nat * classes) :=
  match fuel with
  | O => None
  | S fuel' =>
      l ← c_ids c !! r;
      '(old, new) ← split_class same r l;
      match new with
      | [] => Some (0, c)
      | q :: _ =>
          _ ← c_ids c !! q;
          let c' := Classes (<[q := new]> (<[r := old]> (c_ids c))) (set_reprs new q (c_reprs c)) in
          if recursively && bool_decide (1 < length new) then
            '(k, c'') ← refine_one_class fuel' same true q c'; Some (S k, c'')
          else Some (1, c')
      end
  end.

Section simulation.
Context (rnd : nat -> N) (nw : nat) (s : aig).

(* 169-197 perform_random_simulation; [k] is the position in the random sequence *)
Definition sim_ci (n : nat) (d : list (list N) * nat) : option (list (list N) * nat) :=
  match map (fun i => rnd (d.2 + i) mod 2 ^ 32)%N (seq 0 nw) with
  | [] => None (* _sim[n][0] of an empty vector *)
  | w :: r => _ ← d.1 !! n; Some (<[n := ((w * 2) mod 2 ^ 64)%N :: r]> d.1, d.2 + nw)
  end.
Definition sim_gate (n : nat) (sims : list (list N)) : option (list (list N)) :=
  k ← ks s !! n;
  a ← sims !! sidx k.1; b ← sims !! sidx k.2; _ ← sims !! n;
  Some (<[n := zip_with (fun x y => N.land (if scompl k.1 then wnot x else x) (if scompl k.2 then wnot y else y)) a b]> sims).
Definition random_simulation (k : nat) : option (list (list N) * nat) :=
  d ← each sim_ci (ins s) (repeat (repeat 0%N nw) (size s), k);
  gs ← gates s;
  sims ← each sim_gate gs d.1;
  Some (sims, d.2).

(* 252-282 node_hash *)
Definition node_hash (sims : list (list N)) (n : nat) : option N :=
  w ← sims !! n;
  p ← ph s !! n;
  Some (foldl (fun h '(k, x) => N.lxor h (((if p : bool then wnot x else x) * nth (k mod 128) fprimes 0) mod 2 ^ 32)) 0 (zip (seq 0 nw) w))%N.
(* 303-321 equal *)
Definition equal (sims : list (list N)) (n m : nat) : option bool :=
  x ← sims !! n; y ← sims !! m;
  p ← ph s !! n; q ← ph s !! m;
  Some (forallb (fun '(a, b) => if xorb p q then bool_decide (a = wnot b) else bool_decide (a = b)) (zip x y)).

(* 206-227: one node is put into the hash table *)
Definition enter (sims : list (list N)) (hs : nat) (n : nat) (d : list (option nat) * classes) : option (list (option nat) * classes) :=
  let '(table, c) := d in
  h ← node_hash sims n;
  let i := N.to_nat (h mod N.of_nat hs)%N in
  o ← table !! i;
  match o with
  | None =>
      l ← c_ids c !! n;
      Some (<[i := Some n]> table, Classes (<[n := l ++ [n]]> (c_ids c)) (c_reprs c))
  | Some r =>
      l ← c_ids c !! r;
      Some (table, Classes (<[r := l ++ [n]]> (c_ids c)) (<[n := r]> (c_reprs c)))
  end.
(* foreach_node *)
Definition live_nodes : option (list nat) := sieve (fun n => d ← is_dead s n; Some (negb d)) (seq 0 (size s)).
(* 237-249 refine_classes *)
Definition refine_class (sims : list (list N)) (recursively : bool) (i : nat) (c : classes) : option classes :=
  l ← c_ids c !! i;
  match l with
  | [] => Some c
  | _ => '(_, c') ← refine_one_class (S (length l)) (equal sims) recursively i c; Some c'
  end.
Definition refine_classes (sims : list (list N)) (recursively : bool) (c : classes) : option classes :=
  each (refine_class sims recursively) (seq 0 (length (c_ids c))) c.
(* 199-231 prepare *)
Definition prepare (sims : list (list N)) (c : classes) : option classes :=
  hs ← prime_cudd (size s `div` 4);
  ns ← live_nodes;
  d ← each (enter sims hs) ns (repeat None hs, c);
  refine_classes sims false d.2.
(* 61-70, 80-89 *)
Definition round (_ : nat) (d : classes * nat) : option (classes * nat) :=
  '(sims, k) ← random_simulation d.2; c ← refine_classes sims true d.1; Some (c, k).
Definition classes_init : classes := Classes (repeat [] (size s)) (seq 0 (size s)).
Definition compute_equiv_classes : option (classes * nat) :=
  '(sims, k) ← random_simulation 0;
  c ← prepare sims classes_init;
  each round (seq 0 7) (c, k).
End simulation.

(* ---------- resimulation, 935-1062 ---------- *)
Record csweep := CSweep { cs_sweep : sweep; cs_cls : classes; cs_mark : list bool; cs_rand : nat }.

Section resimulation.
(* [ps] and [solve] as before; [both] tells whether the second recursive call of
   resimulate_other_rec is made for child1: in the source it is not (1060-1061). *)
Context (rnd : nat -> N) (both : bool) (ps : sparams) (solve : oracle) (s : aig).

(* 816-827 _fanouts[n] *)
Definition fanouts (gs : list nat) (n : nat) : list nat :=
  List.filter (fun g => match ks s !! g with Some k => bool_decide (sidx k.1 = n) || bool_decide (sidx k.2 = n) | None => false end) gs.
(* 322-326 equal_cex *)
Definition equal_cex (mb : list bool) (n m : nat) : option bool :=
  p ← ph s !! n; q ← ph s !! m; a ← mb !! n; b ← mb !! m;
  Some (Bool.eqb (Bool.eqb p q) (Bool.eqb a b)).

(* 992-1012 collect_tfo_cands_rec; state: visited, _sim_classes *)
Fixpoint collect_rec (fuel : nat) (gs : list nat) (c : classes) (n : nat) (d : list nat * list nat) : option (list nat * list nat) :=
  match fuel with
  | O => None
  | S fuel' =>
      if decide (n ∈ d.1) then Some d
      else
        d ← each (collect_rec fuel' gs c) (fanouts gs n) (n :: d.1, d.2);
        r ← c_reprs c !! n;
        if decide (r = n) then Some d
        else if decide (r ∈ d.2) then Some d
        else Some (d.1, d.2 ++ [r])
  end.
(* 973-986 *)
Definition collect_tfo_cands (gs : list nat) (c : classes) (r n : nat) : option (list nat) :=
  d ← collect_rec (S (size s)) gs c n ([0], []);
  d ← collect_rec (S (size s)) gs c r d;
  Some (merge_sort le d.2).

(* the value of a gate in the marks *)
Definition mark_and (k : key) (mb : list bool) : option bool :=
  x ← mb !! sidx k.1; y ← mb !! sidx k.2; Some (xorb x (scompl k.1) && xorb y (scompl k.2)).
(* 1018-1042 resimulate_solved_rec; state: visited, MarkB; [val] reads the counterexample *)
Fixpoint solved_rec (fuel : nat) (val : nat -> option bool) (n : nat) (d : list nat * list bool) : option (list nat * list bool) :=
  match fuel with
  | O => None
  | S fuel' =>
      if decide (n ∈ d.1) then Some d
      else
        ci ← is_ci s n;
        if ci : bool then b ← val n; Some (n :: d.1, <[n := b]> d.2)
        else
          k ← ks s !! n;
          d ← solved_rec fuel' val (sidx k.1) (n :: d.1, d.2);
          d ← solved_rec fuel' val (sidx k.2) d;
          b ← mark_and k d.2;
          Some (d.1, <[n := b]> d.2)
  end.
(* 1048-1066 resimulate_other_rec; state: visited, MarkB, position in the random sequence *)
Fixpoint other_rec (fuel : nat) (n : nat) (d : list nat * list bool * nat) : option (list nat * list bool * nat) :=
  match fuel with
  | O => None
  | S fuel' =>
      let '(vis, mb, j) := d in
      if decide (n ∈ vis) then Some d
      else
        ci ← is_ci s n;
        if ci : bool then Some (n :: vis, <[n := N.odd (rnd j)]> mb, S j)
        else
          k ← ks s !! n;
          d ← other_rec fuel' (sidx k.1) (n :: vis, mb, j);
          d ← other_rec fuel' (if both then sidx k.2 else sidx k.1) d;
          b ← mark_and k d.1.2;
          Some (d.1.1, <[n := b]> d.1.2, d.2)
  end.
(* 948-956: one class; state: the above, the classes, the number of splits *)
Definition resim_class (root : nat) (x : list nat * list bool * nat * classes * nat) : option (list nat * list bool * nat * classes * nat) :=
  let '(d, c, ret) := x in
  l ← c_ids c !! root;
  d ← each (other_rec (S (size s))) l d;
  '(k, c) ← refine_one_class (S (length l)) (equal_cex d.1.2) false root c;
  Some (d, c, ret + k).
(* 935-961 resimulate *)
Definition resimulate (gs : list nat) (val : nat -> option bool) (r n : nat) (c : classes) (mb : list bool) (j : nat) : option (classes * list bool * nat) :=
  roots ← collect_tfo_cands gs c r n;
  d ← solved_rec (S (size s)) val n ([0], mb);
  d ← solved_rec (S (size s)) val r d;
  '(d, c, ret) ← each resim_class roots (d, j, c, 0);
  if decide (ret = 0) then None (* assertion *)
  else Some (c, d.1.2, d.2).

(* 899-927 sweep_node *)
Definition csweep_node (gs : list nat) (n new_node : nat) (x : csweep) : option csweep :=
  let 'CSweep w c mb j := x in
  r ← c_reprs c !! n;
  if decide (r = n) then Some x
  else
    o ← sw_map w !! r;
    match o with
    | None => Some x
    | Some f =>
        if decide (sidx f = new_node) then Some (CSweep (Sweep (sw_net w) (sw_map w) (<[n := r]> (sw_repr w)) (sw_prover w)) c mb j)
        else
          '(a, p) ← sat_prove ps (sw_net w) solve (sidx f) new_node (sw_prover w);
          match a with
          | Timeout => Some (CSweep (Sweep (sw_net w) (<[n := None]> (sw_map w)) (sw_repr w) p) c mb j)
          | Failure =>
              pn ← ph s !! n;
              pr ← ph s !! r;
              Some (CSweep (Sweep (sw_net w) (<[n := Some (sxor f (xorb pn pr))]> (sw_map w)) (<[n := r]> (sw_repr w)) p) c mb j)
          | Success m =>
              '(c, mb, j) ← resimulate gs (fun i => o ← sw_map w !! i; g ← o; get_var_value p m (sidx g)) r n c mb j;
              Some (CSweep (Sweep (sw_net w) (sw_map w) (sw_repr w) p) c mb j)
          end
    end.
(* 875-886 *)
Definition csweep_gate (gs : list nat) (n : nat) (x : csweep) : option csweep :=
  let 'CSweep w c mb j := x in
  k ← ks s !! n;
  a ← sw_map w !! sidx k.1;
  b ← sw_map w !! sidx k.2;
  match a, b with
  | Some fa, Some fb =>
      '(f, t) ← create_and (sxor fa (scompl k.1)) (sxor fb (scompl k.2)) (sw_net w);
      csweep_node gs n (sidx f) (CSweep (Sweep t (<[n := Some f]> (sw_map w)) (sw_repr w) (sw_prover w)) c mb j)
  | _, _ => Some x
  end.
(* 808-815 and 867-893; MarkB is clear in the beginning *)
Definition cman_sweep (nw nb : nat) : option (list nat) :=
  '(c, j) ← compute_equiv_classes rnd nw s;
  p ← prover_init (size s);
  w ← each sweep_ci (ins s) (Sweep (aig_init_n nb) (new_map (size s)) (seq 0 (size s)) p);
  gs ← gates s;
  x ← each (csweep_gate gs) gs (CSweep w c (repeat false (size s)) j);
  Some (sw_repr (cs_sweep x)).
Definition ccompute_choice (nw nb : nat) : option cnet :=
  rp ← cman_sweep nw nb; derive_choice_aig nb rp s.
End resimulation.

(* ---- specification ---- *)
(* a number greater than one without divisors but one and itself *)
Definition is_prime (p : nat) : Prop := 1 < p /\ forall i, 1 < i -> i < p -> ~ Nat.divide i p.
(* no node is dead *)
Definition living (s : aig) : Prop := forall n, n < size s -> is_dead s n = Some false.
(* The classes group the nodes below sz: the representative of a node is a node
   of its own class and not later, and a class lists in ascending order the nodes
   it represents. *)
Record grouped (sz : nat) (c : classes) : Prop := {
  gr_len : length (c_reprs c) = sz;
  gr_repr : forall n r, c_reprs c !! n = Some r -> r <= n /\ c_reprs c !! r = Some r;
  gr_ids : length (c_ids c) = sz;
  gr_class : forall r, r < sz -> c_ids c !! r = Some (filter (fun n => c_reprs c !! n = Some r) (seq 0 sz))
}.
(* nodes with the same or complementary functions are in one class *)
Definition together (s : aig) (c : classes) : Prop :=
  forall n m, n < size s -> m < size s -> alike s n m -> c_reprs c !! n = c_reprs c !! m.
(* the solver's models cover the variables it was given (set_nr_vars) *)
Definition full_models (ps : sparams) (solve : oracle) : Prop :=
  forall k cls lits m, solve k cls lits = Success m -> init_vars ps <= length m.
