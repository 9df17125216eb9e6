(* C50: candidate classes from random simulation, and their refinement with the
   counterexamples of the solver. *)
From Verif Require Import Base Aig AigSem AigHash AigProofs AigApi AigReach NetProofs Clean Demo Cnf CnfProofs Choice ChoiceProofs ChoiceSat ChoiceSatProofs
  PropChoiceSat ChoiceCompute ChoiceComputeProofs PropChoiceCompute ChoiceClasses ChoiceClassesProofs ChoiceRefineProofs ChoiceSimProofs ChoiceResimProofs
  ChoiceCSweepProofs.

(* Abc_PrimeCudd returns the least number from p on that is 1 or an odd prime. *)
Theorem C50_prime p : exists r, prime_cudd p = Some r /\ p <= r /\ (r = 1 \/ is_prime r /\ r <> 2) /\
  forall q, p <= q -> q < r -> ~ (q = 1 \/ is_prime q /\ q <> 2).
Proof.
  destruct (prime_cudd_spec p) as (r & E & Hle & Hg & Hmin). exists r. split; [done|]. split; [done|]. split; [exact Hg|].
  intros q Hq Hlt Hg'. specialize (Hmin q Hq Hg'). lia.
Qed.
Print Assumptions C50_prime.

(* For every sequence of random numbers, compute_equiv_classes partitions the
   nodes, the representative of a class is its first node, nodes with the same or
   complementary functions are in one class, and all nodes of a class agree with
   its representative in the last simulation. *)
Theorem C50_classes rnd nw s : swept s -> living s -> 0 < nw ->
  exists c k, compute_equiv_classes rnd nw s = Some (c, k) /\ grouped (size s) c /\ together s c /\
    exists sims j, random_simulation rnd nw s j = Some (sims, k) /\ forall n r, c_reprs c !! n = Some r -> equal s sims r n = Some true.
Proof.
  intros P Hl Hw. destruct (compute_equiv_classes_spec rnd nw s P Hl Hw) as (c & k & E & G & T & sims & j & Es & R & U).
  exists c, k. split_and!; try done. exists sims, j. split; [done|]. intros n r Er.
  assert (Hn : n < size s) by (rewrite <- (gr_len _ _ G); by apply lookup_lt_Some in Er).
  assert (Hr : r < size s) by (apply (gr_repr _ _ G) in Er as [? _]; lia).
  rewrite (equal_spec rnd nw s P Hw sims r n R Hr Hn). by rewrite bool_decide_eq_true_2 by (by apply U).
Qed.
Print Assumptions C50_classes.

(* Sweeping with these classes goes through, whatever the random numbers: in
   particular every counterexample splits a class (the assertion on [ret]).  What
   it records is sound. *)
Theorem C50_sweep rnd both ps solve nw nb s : swept s -> living s -> correct_oracle solve -> full_models ps solve -> size s < init_vars ps -> 0 < nw -> 0 < nb ->
  exists rp, cman_sweep rnd both ps solve s nw nb = Some rp /\ sound_reprs s rp.
Proof.
  intros P Hl Ho Hf Hs Hw Hb. destruct (cman_sweep_total rnd both ps solve s P Ho Hf Hs nw nb Hl Hw Hb) as (rp & E & S & _). by exists rp.
Qed.
Print Assumptions C50_sweep.

(* The computation is C40's for some candidates, so its network is equivalent to
   the given one and its choices are right. *)
Theorem C50_sound rnd both ps solve nw nb s c : swept s -> correct_oracle solve -> 0 < nb -> ccompute_choice rnd both ps solve s nw nb = Some c ->
  (exists sim, compute_choice ps solve sim nb s = Some c) /\
  reachable (cb c) /\ is_combinational (cb c) = true /\ same_outputs s (cb c) /\ forall n m, link c n m -> m < n /\ alike (cb c) n m.
Proof.
  intros P Ho Hb E. unfold ccompute_choice in E. apply bind_Some in E as (rp & Er & E).
  destruct (cman_sweep_sim rnd both ps solve s nw nb rp P Er) as [sim Es].
  assert (Ec : compute_choice ps solve sim nb s = Some c) by (unfold compute_choice; by rewrite Es).
  split; [by exists sim|]. by eapply C40_sound.
Qed.
Print Assumptions C50_sound.

(* If resimulate_other_rec visited both children, nodes with the same or
   complementary functions would stay together, every recorded representative
   would be the first node of its kind, and no assertion would fail. *)
Theorem C50_fixed rnd ps solve nw nb s : swept s -> living s -> correct_oracle solve -> full_models ps solve -> size s < init_vars ps -> 0 < nw -> 0 < nb ->
  (exists rp, cman_sweep rnd true ps solve s nw nb = Some rp /\ first_reprs s rp) /\ is_Some (ccompute_choice rnd true ps solve s nw nb).
Proof.
  intros P Hl Ho Hf Hs Hw Hb. destruct (cman_sweep_total rnd true ps solve s P Ho Hf Hs nw nb Hl Hw Hb) as (rp & E & S & F). specialize (F eq_refl).
  split; [by exists rp|]. unfold ccompute_choice. rewrite E. cbn [mbind option_bind]. by apply C40_defined.
Qed.
Print Assumptions C50_fixed.

(* ---- witnesses ---- *)
(* a solver: depth-first search *)
Definition falsified (m : list bool) (c : list N) : bool :=
  forallb (fun l => match m !! lit_var l with Some b => Bool.eqb b (N.odd l) | None => false end) c.
Fixpoint search (cls : list (list N)) (k : nat) (m : list bool) : option (list bool) :=
  if existsb (falsified m) cls then None
  else match k with
       | O => Some m
       | S k' => match search cls k' (m ++ [true]) with Some r => Some r | None => search cls k' (m ++ [false]) end
       end.
Definition searcher (bound : nat) : oracle := fun _ cls lits =>
  let all := cls ++ map (fun l => [l]) lits in
  match search all (Nat.max (nvars all) bound) [] with Some m => Success m | None => Failure end.
Lemma search_sat cls k m r : search cls k m = Some r -> length r = length m + k /\ existsb (falsified r) cls = false.
Proof.
  revert m. induction k as [|k IH]; intros m; cbn [search]; destruct (existsb (falsified m) cls) eqn:E; try done.
  - intros [= <-]. split; [lia|done].
  - destruct (search cls k (m ++ [true])) as [r'|] eqn:E1.
    + intros [= <-]. destruct (IH _ E1) as [H1 H2]. rewrite app_length in H1. cbn in H1. split; [lia|done].
    + intros E2. destruct (IH _ E2) as [H1 H2]. rewrite app_length in H1. cbn in H1. split; [lia|done].
Qed.
Lemma search_unsat cls k m x : search cls k m = None -> (forall i b, m !! i = Some b -> x i = b) -> ~ cnf_sat x cls.
Proof.
  revert m. induction k as [|k IH]; intros m E Hx Hs; cbn [search] in E; destruct (existsb (falsified m) cls) eqn:Ef; try done.
  1, 2: apply existsb_exists in Ef as (c & Hc%elem_of_list_In & Hf); destruct (Hs c Hc) as (l & Hl%elem_of_list_In & Hv);
    unfold falsified in Hf; rewrite forallb_forall in Hf; specialize (Hf l Hl); destruct (m !! lit_var l) as [b|] eqn:El; [|done];
    apply Hx in El; unfold lit_val in Hv; rewrite El in Hv; by destruct b, (N.odd l).
  destruct (search cls k (m ++ [true])) eqn:E1; [done|].
  assert (Hm : forall b, x (length m) = b -> forall i b', (m ++ [b]) !! i = Some b' -> x i = b').
  { intros b Hb i b' Hi. apply lookup_app_Some in Hi as [Hi|[Hle Hi]]; [by apply Hx|].
    apply list_lookup_singleton_Some in Hi as [Hi <-]. by replace i with (length m) by lia. }
  destruct (x (length m)) eqn:Eb; [apply (IH _ E1 (Hm true eq_refl) Hs)|apply (IH _ E (Hm false eq_refl) Hs)].
Qed.
Lemma searcher_correct b : correct_oracle (searcher b).
Proof.
  assert (U : forall x cls lits, cnf_sat x (cls ++ map (fun l => [l]) lits) <-> cnf_sat x cls /\ Forall (fun l => lit_val x l = true) lits).
  { intros x cls lits. unfold cnf_sat. setoid_rewrite elem_of_app. rewrite Forall_forall. setoid_rewrite elem_of_list_fmap. split.
    - intros H. split; [by intros c Hc; apply H; left|]. intros l Hl. apply clause_unit, H. right. by exists l.
    - intros [H1 H2] c [Hc|(l & -> & Hl)]; [by apply H1|]. by apply clause_unit, H2. }
  split.
  - intros k cls lits m. unfold searcher. destruct (search _ _ _) as [r|] eqn:E; [|done]. intros [= ->].
    destruct (search_sat _ _ _ _ E) as [Hl Hf]. cbn [length Nat.add] in Hl.
    assert (Hn : nvars (cls ++ map (fun l => [l]) lits) <= length m) by lia.
    assert (S : cnf_sat (fun i => nth i m false) (cls ++ map (fun l => [l]) lits)).
    { intros c Hc. destruct (falsified m c) eqn:Ec.
      - assert (existsb (falsified m) (cls ++ map (fun l => [l]) lits) = true); [|congruence]. apply existsb_exists. exists c. split; [by apply elem_of_list_In|done].
      - assert (K : exists l, In l c /\ match m !! lit_var l with Some b0 => Bool.eqb b0 (N.odd l) | None => false end = false).
        { clear -Ec. unfold falsified in Ec. induction c as [|l c IH]; [done|]. cbn [forallb] in Ec. apply andb_false_iff in Ec as [Ec|Ec].
          - exists l. split; [by left|done].
          - destruct (IH Ec) as (l' & ? & ?). exists l'. split; [by right|done]. }
        destruct K as (l & Hin%elem_of_list_In & Hv). exists l. split; [done|]. pose proof (nvars_elem _ c l Hc Hin) as Hlt.
        destruct (lookup_lt_is_Some_2 m (lit_var l)) as [b0 Eb]; [lia|]. rewrite Eb in Hv. unfold lit_val. rewrite nth_lookup, Eb. cbn [default from_option].
        by destruct b0, (N.odd l). }
    apply U in S as [S1 S2]. split; [rewrite nvars_app in Hn; lia|]. split; [|done].
    apply Forall_forall. intros l Hl'. eapply Nat.lt_le_trans; [|exact Hn]. apply nvars_elem with [l]; [|by apply elem_of_list_singleton].
    apply elem_of_app. right. apply elem_of_list_fmap. by exists l.
  - intros k cls lits. unfold searcher. destruct (search _ _ _) as [r|] eqn:E; [done|]. intros _ x Hx Hl.
    by apply (search_unsat _ _ _ x E); [done|apply U].
Qed.
Lemma searcher_full ps b : init_vars ps <= b -> full_models ps (searcher b).
Proof.
  intros Hb k cls lits m. unfold searcher. destruct (search _ _ _) as [r|] eqn:E; [|done]. intros [= <-]. destruct (search_sat _ _ _ _ E) as [Hl _]. cbn [length Nat.add] in Hl. lia.
Qed.

(* x y z r q = 1 .. 5; the nodes 13, 14, 17 and 18 are x & y & z, 6 and 11 are
   y & z.  The simulation has no pattern with x & y & z. *)
Definition apart_ps := Sparams false 5000 100 20.
Definition apart_net : aig := build [OpPi; OpPi; OpPi; OpPi; OpPi;
  OpAnd (Sig 2 false) (Sig 3 false); OpAnd (Sig 4 false) (Sig 6 false); OpAnd (Sig 3 false) (Sig 5 false); OpAnd (Sig 2 false) (Sig 8 true);
  OpAnd (Sig 2 false) (Sig 3 true); OpAnd (Sig 2 false) (Sig 10 true); OpAnd (Sig 1 false) (Sig 2 false); OpAnd (Sig 3 false) (Sig 12 false);
  OpAnd (Sig 1 false) (Sig 6 false); OpAnd (Sig 1 false) (Sig 3 false); OpAnd (Sig 2 false) (Sig 15 true); OpAnd (Sig 2 false) (Sig 16 true);
  OpAnd (Sig 1 false) (Sig 11 false); OpPo (Sig 18 false)].
Definition apart_rnd (k : nat) : N := if decide (k < 40) then nth (k mod 5) [194; 73; 401; 4; 289]%N 0%N else 1%N.
Lemma apart_living : living apart_net.
Proof.
  intros n Hn. assert (size apart_net = 19) as E by (vm_compute; reflexivity). rewrite E in Hn.
  do 19 (destruct n as [|n]; [vm_compute; reflexivity|]). lia.
Qed.
Lemma apart_swept : swept apart_net.
Proof.
  apply (C40_built apart_net 5); [apply build_reachable; vm_compute; reflexivity|vm_compute; reflexivity|].
  intros n (a & b & Hk & _). apply lookup_lt_Some in Hk. by apply apart_living.
Qed.
Lemma apart_alike : alike apart_net 13 14.
Proof.
  exists false. intros env v V. pose proof (val_gate _ _ _ V) as G. unfold sval in G.
  assert (G' : forall n a b, ks apart_net !! n = Some (a, b) -> n <> 0 -> a <> b -> v n = xorb (v (sidx a)) (scompl a) && xorb (v (sidx b)) (scompl b)) by exact G.
  rewrite (G' 13 (Sig 3 false) (Sig 12 false)), (G' 14 (Sig 1 false) (Sig 6 false)) by (vm_compute; done). cbn [sidx scompl].
  rewrite (G' 12 (Sig 1 false) (Sig 2 false)), (G' 6 (Sig 2 false) (Sig 3 false)) by (vm_compute; done). cbn [sidx scompl].
  by destruct (v 1), (v 2), (v 3).
Qed.

(* Since resimulate_other_rec does not visit the second child, it works with
   outdated values, and nodes with equal functions are separated: 17 is recorded
   with 14 and 18 with 13, although the four are equal.  Then an assertion of
   set_choice fails (or, without assertions, the choice list is corrupted). *)
Theorem C50_assertion_refuted : exists rnd ps solve s rp, swept s /\ living s /\ correct_oracle solve /\ full_models ps solve /\ size s < init_vars ps /\
  cman_sweep rnd false ps solve s 1 7 = Some rp /\ ~ first_reprs s rp /\ ccompute_choice rnd false ps solve s 1 7 = None.
Proof.
  exists apart_rnd, apart_ps, (searcher 20), apart_net, [0; 1; 2; 3; 4; 5; 6; 7; 8; 9; 10; 6; 12; 13; 14; 15; 16; 14; 13].
  assert (E : cman_sweep apart_rnd false apart_ps (searcher 20) apart_net 1 7 = Some [0; 1; 2; 3; 4; 5; 6; 7; 8; 9; 10; 6; 12; 13; 14; 15; 16; 14; 13])
    by (vm_compute; reflexivity).
  assert (Hn : size apart_net = 19) by (vm_compute; reflexivity).
  split; [exact apart_swept|]. split; [exact apart_living|]. split; [apply searcher_correct|]. split; [apply searcher_full; cbn; lia|].
  split; [rewrite Hn; cbn; lia|]. split; [exact E|]. split.
  - intros F. destruct (F 17 14 eq_refl) as [K|K]; [done|]. specialize (K 13). rewrite Hn in K. assert (14 <= 13); [|lia]. apply K; [lia|].
    apply alike_trans with 14; [|apply alike_sym, apart_alike].
    exists false. intros env v V. pose proof (val_gate _ _ _ V) as G. unfold sval in G.
    assert (G' : forall n a b, ks apart_net !! n = Some (a, b) -> n <> 0 -> a <> b -> v n = xorb (v (sidx a)) (scompl a) && xorb (v (sidx b)) (scompl b)) by exact G.
    rewrite (G' 17 (Sig 2 false) (Sig 16 true)), (G' 14 (Sig 1 false) (Sig 6 false)) by (vm_compute; done). cbn [sidx scompl].
    rewrite (G' 16 (Sig 2 false) (Sig 15 true)), (G' 6 (Sig 2 false) (Sig 3 false)) by (vm_compute; done). cbn [sidx scompl].
    rewrite (G' 15 (Sig 1 false) (Sig 3 false)) by (vm_compute; done). cbn [sidx scompl].
    by destruct (v 1), (v 2), (v 3).
  - unfold ccompute_choice. rewrite E. cbn [mbind option_bind]. vm_compute. reflexivity.
Qed.
Print Assumptions C50_assertion_refuted.

(* ---- nonvacuity: the same network ---- *)
Example C50_nonvacuous : swept apart_net /\ living apart_net /\ correct_oracle (searcher 20) /\ full_models apart_ps (searcher 20) /\
  match compute_equiv_classes apart_rnd 1 apart_net with
  | Some (c, k) => c_reprs c = [0; 1; 2; 3; 4; 5; 6; 0; 8; 9; 9; 6; 12; 0; 0; 15; 2; 0; 0] /\ k = 40
  | None => False
  end /\
  cman_sweep apart_rnd true apart_ps (searcher 20) apart_net 1 7 = Some [0; 1; 2; 3; 4; 5; 6; 7; 8; 9; 10; 6; 12; 13; 13; 15; 16; 13; 13].
Proof.
  split; [exact apart_swept|]. split; [exact apart_living|]. split; [apply searcher_correct|]. split; [apply searcher_full; cbn; lia|].
  split; vm_compute; [split; reflexivity|reflexivity].
Qed.
