(* Model of the selection phase of rewriting and of the whole pass:
   include/operations/optimization/rewrite.hpp:75-148, 168-250.

   The depths (int, in unordered_maps that give 0 for a missing key) are functions
   from node indices to integers; depths and gains are unbounded. *)
From Verif Require Import Base Aig AigSem Topo Clean Tt TtCache Cut CutEnum Cnf Sim Subst RefDeref Rewrite NodeRewriting.

(* rewrite.hpp:43-45 *)
Record rw_ps := RwPs { use_zero_gain : bool; preserve_depth : bool }.
Definition depths := nat -> Z.

(* rewrite.hpp:189-200: the arrival depth of one node; the test for primary inputs
   is written twice, register outputs are not tested *)
Definition arrive_node (s : aig) (a : depths) (n : nat) : option depths :=
  dead ← is_dead s n;
  if dead : bool then Some a
  else
    pi ← (if decide (n = 0) then Some false else is_pi s n);
    if pi : bool then Some (setv a n 0%Z)
    else
      fs ← aig_fan s n;
      Some (foldl (fun a c => setv a n (Z.max (a n) (a c + 1))) (setv a n (-1)%Z) fs).
(* rewrite.hpp:213-227 compute_require_depth_rec *)
Fixpoint require_rec (s : aig) (fuel n : nat) : M depths unit := fun r =>
  match fuel with
  | O => None
  | S fuel' =>
      e ← term_fn s n;
      if e : bool then Some (Datatypes.tt, r)
      else
        fs ← aig_fan s n;
        foldM (fun _ c r => if (r n - 1 <? r c)%Z then require_rec s fuel' c (setv r c (r n - 1)%Z) else Some (Datatypes.tt, r)) Datatypes.tt fs r
  end.
(* rewrite.hpp:186-211 initialize_depth *)
Definition initialize_depth (s : aig) : option (depths * depths) :=
  a ← opt_fold (arrive_node s) (fun _ => 0%Z) (seq 0 (size s));
  let m := foldl (fun m po => Z.max m (a (sidx po))) 0%Z (pos s) in
  let r0 : depths := fun n => match is_dead s n with Some false => 100000%Z | _ => 0%Z end in
  '(_, r) ← foldM (fun _ po r => require_rec s (S (size s)) (sidx po) (setv r (sidx po) m)) Datatypes.tt (pos s) r0;
  Some (a, r).
(* rewrite.hpp:177-182 initialize_reference *)
Definition initialize_reference (s : aig) : values := fun n =>
  match is_dead s n, fanout_size s n with Some false, Some f => f | _, _ => 0%N end.

(* rewrite.hpp:235-250 update_arrive_depth; the cone below a fanin that is no leaf is
   walked twice *)
Fixpoint update_arrive (s : aig) (leaves : list nat) (fuel n : nat) : M depths Z := fun a =>
  match fuel with
  | O => None
  | S fuel' =>
      fs ← aig_fan s n;
      foldM (fun res c a =>
        if decide (c ∈ leaves) then Some (Z.max res (a c + 1), setv a n (Z.max (a n) (a c + 1)))
        else
          '(r1, a1) ← update_arrive s leaves fuel' c a;
          '(r2, a2) ← update_arrive s leaves fuel' c a1;
          Some (Z.max res (r1 + 1), setv a2 n (Z.max (a2 n) (r2 + 1)))) 0%Z fs a
  end.

(* what the callback changes: the values, the arrival depths, best_gain and
   best_signal (not initialised until the first improvement) *)
Record sel := Sel { svalues : values; sarrive : depths; sgain : Z; sbest : option signal }.

(* rewrite.hpp:109-124 on_signal *)
Definition on_signal (ps : rw_ps) (req : depths) (n : nat) (leaves : list nat) (before : nat)
    (s : aig) (f : signal) (c : sel) : option (bool * sel) :=
  '(cost, v1) ← ref_cut s (sidx f) leaves (svalues c);
  '(_, v2) ← deref_cut s (sidx f) leaves v1;
  '(_, a) ← update_arrive s leaves (S (size s)) (sidx f) (sarrive c);
  let gain := (Z.of_nat before - Z.of_nat cost)%Z in
  Some (true,
    if (negb (preserve_depth ps) || (0 <=? req n - a (sidx f))%Z) && (sgain c <? gain)%Z
    then Sel v2 a gain (Some f) else Sel v2 a (sgain c) (sbest c)).

Section run.
Context {D : Type}.
Variable d : aig * classes.   (* the database of the rewriting function *)
Variable ps : rw_ps.
Variable req : depths.
Variable x : list (cutset D) * cache.   (* the cuts *)

(* rewrite.hpp:94-129: one cut *)
Definition try_cut (n : nat) (st : aig * sel) (c : cut D) : option (aig * sel) :=
  if decide (length (lvs c) = 4) then
    t ← cache_get (fid c) x.2;
    '(before, v1) ← deref_cut st.1 n (lvs c) (svalues st.2);
    '(s', r) ← node_rewriting (on_signal ps req n (lvs c) before) d t (map (fun l => Sig l false) (lvs c)) st.1
      (Sel v1 (sarrive st.2) (sgain st.2) (sbest st.2));
    '(_, v3) ← ref_cut s' n (lvs c) (svalues r);
    Some (s', Sel v3 (sarrive r) (sgain r) (sbest r))
  else Some st.

(* rewrite.hpp:85-134: one node; the chosen replacements are kept in the order of
   the map *)
Definition state : Type := aig * values * depths * list (nat * signal).
Definition select_node (st : state) (n : nat) : option state :=
  let '(s, v, a, l) := st in
  ci ← is_ci s n;
  dead ← is_dead s n;
  if (ci || dead) : bool then Some st
  else
    fs ← fanout_size s n;
    if (1000 <? fs)%N then Some st
    else
      cs ← x.1 !! n;
      '(s', r) ← opt_fold (try_cut n) (s, Sel v a (-1) None) (vis cs);
      if ((0 <? sgain r) || (use_zero_gain ps && (sgain r =? 0)))%Z then
        f ← sbest r; Some (s', svalues r, sarrive r, l ++ [(n, f)])
      else Some (s', svalues r, sarrive r, l).
End run.

(* rewrite.hpp:75-148 run: [b] buckets in the hash table of the result; the cut
   parameters are left open *)
Definition select_all {D} lt upd (d0 : D) cap max cps d ps (s : aig) : option state :=
  '(a, r) ← initialize_depth s;
  x ← cut_enumeration true lt upd d0 cap max s cps;
  opt_fold (select_node d ps r x) (s, initialize_reference s, a, []) (seq 1 (size s - 1)).
Definition rewrite {D} b lt upd (d0 : D) cap max cps d ps (s : aig) : option aig :=
  '(s', v, _, l) ← select_all lt upd d0 cap max cps d ps s;
  replacement_phase b (recorded_fanouts s) l s' v.

(* ---- specification ---- *)
(* A is what has to be added for the cone of r above the leaves: r, and the nodes
   below it that are not in use *)
Record addc (s : aig) (leaves : list nat) (used : nat -> Prop) (r : nat) (A : list nat) : Prop := {
  addc_nodup : NoDup A;
  addc_root : r ∈ A <-> r ∉ leaves;
  addc_in : forall y, y <> r -> (y ∈ A <-> y ∉ leaves /\ ~ used y /\ exists p, p ∈ A /\ fanin s p y)
}.
(* in use in s when the nodes of E are gone: a primary output, or a fanin of a node
   that is not in E *)
Definition still_used (s : aig) (E : list nat) (y : nat) : Prop :=
  (exists f, f ∈ outs s /\ sidx f = y) \/ exists p, p ∉ E /\ fanin s p y.
