(* C34: the replacement phase of rewriting. *)
From Verif Require Import Base Aig AigSem AigHash AigProofs AigApi Topo Clean NetProofs CleanProofs Demo NetDemo PropNet
  Subst SubstProofs PropSubst RefDeref RefDerefProofs PropRefDeref Rewrite RewriteProofs.

(* the recorded fanouts are gates *)
Definition fanouts_ok (F : nat -> list signal) (s : aig) : Prop :=
  forall m f, is_gate s m -> f ∈ F m -> is_gate s (sidx f).

(* Replacing a gate by an equivalent signal that does not depend on it succeeds
   and leaves every output function (and the value fields) unchanged. *)
Lemma replacement_spec F s v old new : network s -> moderate s -> in_range v -> fanouts_ok F s -> replaceable s old new ->
  exists s' v', local_replacement F old new (s, v) = Some (tt, (s', v')) /\ network s' /\ replaced old new s s' /\
    (forall y, v' y = v y).
Proof.
  intros Hnet Hm Hv HF (Hg & Hval & He & Hc & Hno). unfold local_replacement.
  pose proof Hg as (ka & kb & Hk & _). assert (Hold : old < size s) by (by eapply lookup_lt_Some).
  destruct (deref_ref s (term_b s) Hnet (term_fn s) (term_total s) old v Hold (moderate_Z s Hm) Hv) as (r & v1 & v2 & E1 & E2 & Hv2).
  unfold deref_node_recursive, ref_node_recursive. rewrite E1. cbn [mbind option_bind]. rewrite E2. cbn [mbind option_bind].
  assert (Hne : sidx new <> old) by (intros E; apply Hno; rewrite E; constructor).
  assert (Hfin : forall s', replaced old new s s' -> shape s' -> network s').
  { intros s' Hr Hs. apply shape_network; [exact Hs|]. eapply redirect_acyclic; [exact (net_acyclic s Hnet)|exact Hno|apply Hr]. }
  destruct (first_po old new (pos s)) as [l|] eqn:Ef.
  - destruct (replaced_po s old new l Hnet Hval Ef) as [Hr Hs]. do 2 eexists. split; [reflexivity|]. split; [by apply Hfin|].
    split; [exact Hr|exact Hv2].
  - destruct (replaced_rewire s old new (F old) Hnet Hval Hne Hc) as (s' & E & Hr & Hs & _).
    { apply Forall_forall. intros f Hf. by eapply HF. }
    rewrite E. cbn [mbind option_bind]. exists s', v2. split; [reflexivity|]. split; [by apply Hfin|]. split; [exact Hr|exact Hv2].
Qed.

Lemma replaced_computes old new s s' : network s -> network s' -> equivalent s old new -> replaced old new s s' ->
  forall env l, computes s' env l <-> computes s env l.
Proof.
  intros Hn Hn' He Hr.
  assert (Hdir : forall env l, computes s env l -> computes s' env l).
  { intros env l (v & V & ->). pose proof (He env v V) as Hv. exists v. split; [by eapply replaced_valuation|].
    pose proof (rp_frozen _ _ _ _ Hr) as (_ & _ & Eo & _). unfold pos. rewrite Eo, <- !firstn_map. by rewrite (replaced_outs old new s s' v). }
  intros env l. split; [|apply Hdir]. intros Hl. destruct (net_valuation s env Hn) as [v V].
  assert (Hs : computes s env (map (sval v) (pos s))) by (by exists v).
  by rewrite (computes_unique s' env l _ Hn' Hl (Hdir _ _ Hs)).
Qed.

Theorem C34_replacement F s v old new : network s -> moderate s -> in_range v -> fanouts_ok F s -> replaceable s old new ->
  exists s' v', local_replacement F old new (s, v) = Some (tt, (s', v')) /\ network s' /\
    (forall y, v' y = v y) /\ frozen s s' /\
    (forall env w, valuation s env w -> valuation s' env w /\ map (sval w) (outs s') = map (sval w) (outs s)) /\
    (forall env l, computes s' env l <-> computes s env l).
Proof.
  intros Hnet Hm Hv HF Hr. destruct (replacement_spec F s v old new Hnet Hm Hv HF Hr) as (s' & v' & E & Hn' & Hre & Hv').
  exists s', v'. split; [done|]. split; [done|]. split; [done|]. split; [apply Hre|]. destruct Hr as (_ & _ & He & _).
  split.
  - intros env w V. pose proof (He env w V). split; [by eapply replaced_valuation|by eapply replaced_outs].
  - by eapply replaced_computes.
Qed.
Print Assumptions C34_replacement.

(* If the node drives no primary output and the recorded fanouts are complete, it
   is no longer used afterwards (except as a register input). *)
Theorem C34_unused F s v old new s' v' : network s -> moderate s -> in_range v -> fanouts_ok F s -> replaceable s old new ->
  (forall n, fanin s n old -> n ∈ map sidx (F old)) -> (forall po, po ∈ pos s -> sidx po <> old) ->
  local_replacement F old new (s, v) = Some (tt, (s', v')) ->
  forall n, ~ fanin s' n old.
Proof.
  intros Hnet Hm Hv HF (Hg & Hval & He & Hc & Hno) Hall Hpo.
  assert (Hne : sidx new <> old) by (intros E; apply Hno; rewrite E; constructor).
  unfold local_replacement. destruct (deref_node_recursive s old v) as [[r v1]|]; [|done]. cbn [mbind option_bind].
  destruct (ref_node_recursive s old v1) as [[r2 v2]|]; [|done]. cbn [mbind option_bind].
  destruct (first_po old new (pos s)) as [l|] eqn:Ef.
  { destruct (first_po_some _ _ _ _ Ef) as (l1 & po & l2 & El & Ep & _). exfalso. apply (Hpo po); [|exact Ep].
    rewrite El. apply elem_of_app. right. left. }
  destruct (replaced_rewire s old new (F old) Hnet Hval Hne Hc) as (s1 & E & Hr & Hs & Hin & Hout & _).
  { apply Forall_forall. intros f Hf. by eapply HF. }
  rewrite E. cbn [mbind option_bind]. intros [= <- _] n Hf.
  destruct (decide (n ∈ map sidx (F old))) as [Hn|Hn]; [by apply (Hin n Hn)|].
  apply Hn, Hall. unfold fanin in *. by rewrite <- Hout.
Qed.
Print Assumptions C34_unused.

(* What initialize_fanouts records: gates, and all users; this stays so while the
   network grows. *)
Lemma in_gate_uses s m n f : f ∈ gate_uses s m n -> sidx f = n /\ is_gate s n.
Proof.
  unfold gate_uses. destruct (ks s !! n) as [[a b]|] eqn:E; [|by intros ?%elem_of_nil]. case_decide as Hd; [by intros ?%elem_of_nil|].
  intros Hf. split; [|exists a, b; split_and!; [done|tauto|tauto]].
  apply elem_of_app in Hf as [Hf|Hf]; case_decide; (apply elem_of_list_singleton in Hf || by apply elem_of_nil in Hf); by subst.
Qed.
Theorem C34_recorded s0 s : network s0 -> (forall n, is_gate s0 n -> is_gate s n) -> (forall n, is_gate s n -> n < size s0 -> is_gate s0 n) ->
  fanouts_ok (recorded_fanouts s0) s /\
  forall n m, fanin s0 n m -> is_dead s0 n <> Some true -> n ∈ map sidx (recorded_fanouts s0 m).
Proof.
  intros Hnet Hg Hg'. split.
  - intros m f Hm Hf. apply elem_of_app in Hf as [Hf|Hf].
    + apply elem_of_list_In, in_flat_map in Hf as (n & _ & Hf). apply elem_of_list_In, in_gate_uses in Hf as [-> Hf]. by apply Hg.
    + apply elem_of_list_filter in Hf as [-> _]. done.
  - intros n m (a & b & Ek & Hn & Hab & Hm) Hd. apply elem_of_list_fmap.
    assert (Hin : exists f, f ∈ gate_uses s0 m n).
    { unfold gate_uses. rewrite Ek. rewrite decide_False by tauto. destruct Hm as [Hm|Hm]; subst m.
      - exists (Sig n (scompl a)). apply elem_of_app. left. rewrite decide_True by done. left.
      - exists (Sig n (scompl b)). apply elem_of_app. right. rewrite decide_True by done. left. }
    destruct Hin as [f Hf]. exists f. split; [by apply in_gate_uses in Hf as [-> _]|].
    apply elem_of_app. left. apply elem_of_list_In, in_flat_map. exists n. split; [|by apply elem_of_list_In].
    apply elem_of_list_In, elem_of_seq. apply lookup_lt_Some in Ek. unfold size. lia.
Qed.
Print Assumptions C34_recorded.

(* A whole list of replacements, each admissible when it is made, followed by the
   final cleanup. *)
Lemma fanouts_ok_step F s s' : fanouts_ok F s -> (forall n, is_gate s n <-> is_gate s' n) -> fanouts_ok F s'.
Proof. intros HF Hg m f Hm Hf. apply Hg. eapply HF; [|exact Hf]. by apply Hg. Qed.

Lemma replace_all_spec F l s v : network s -> moderate s -> in_range v -> fanouts_ok F s -> harmless F l s ->
  exists s' v', replace_all F l (s, v) = Some (tt, (s', v')) /\ network s' /\ frozen s s' /\
    (forall env l, computes s' env l <-> computes s env l).
Proof.
  revert s v. induction l as [|c l IH]; intros s v Hnet Hm Hv HF Hh.
  { exists s, v. split; [done|]. split; [done|]. split; [apply frozen_refl|done]. }
  unfold replace_all. cbn [foldM]. unfold bnd. inversion Hh as [|? ? ? Hc Hl|? ? ? Hc Hl]; subst.
  - rewrite decide_True by done. unfold ret. by apply IH.
  - assert (Hne : c.1 <> sidx c.2) by (intros E; destruct Hc as (_ & _ & _ & _ & Hno); apply Hno; rewrite E; constructor).
    rewrite decide_False by done.
    destruct (replacement_spec F s v _ _ Hnet Hm Hv HF Hc) as (s1 & v1 & E & Hn1 & Hr & Hv1). rewrite E.
    destruct (IH s1 v1) as (s' & v' & E' & Hn' & Hf & Heq).
    + done.
    + unfold moderate. by destruct (rp_frozen _ _ _ _ Hr) as (_ & _ & _ & _ & -> & _).
    + intros y. rewrite Hv1. apply Hv.
    + eapply fanouts_ok_step; [exact HF|apply Hr].
    + by eapply Hl.
    + exists s', v'. split; [exact E'|]. split; [done|]. split; [eapply frozen_trans; [apply Hr|done]|].
      intros env l0. rewrite Heq. by apply replaced_computes with c.1 c.2; [..|apply Hc|].
Qed.
Theorem C34_phase nb F l s v : 0 < nb -> network s -> moderate s -> in_range v -> is_combinational s = true -> fanouts_ok F s ->
  harmless F l s ->
  exists d, replacement_phase nb F l s v = Some d /\ reachable d /\ npi d = npi s /\ npo d = npo s /\
    forall env l, computes s env l <-> computes d env l.
Proof.
  intros Hnb Hnet Hm Hv Hcomb HF Hh. destruct (replace_all_spec F l s v Hnet Hm Hv HF Hh) as (s' & v' & E & Hn' & Hf & Heq).
  pose proof Hf as (Hi & Hpi & Hpo & _ & _ & Hlo).
  assert (Hc' : is_combinational s' = true).
  { apply bool_decide_eq_true in Hcomb as [? ?]. apply bool_decide_eq_true_2. rewrite Hi, Hpi, Hpo, Hlo. done. }
  destruct (C20_cleanup_preserves nb s' Hnb Hn' Hc') as (d & Ed & Hr & Hdi & Hdo & _ & Hd).
  exists d. split; [unfold replacement_phase; rewrite E; cbn [mbind option_bind]; exact Ed|]. split; [done|].
  split; [congruence|]. split; [congruence|]. intros env l0. by rewrite <- Heq, Hd.
Qed.
Print Assumptions C34_phase.

(* ---- examples ---- *)
Definition zero_v : values := fun _ => 0%N.
Lemma zero_range : in_range zero_v.
Proof. intros y. reflexivity. Qed.
Lemma build_network ops : bool_decide (is_Some (checked ops [] demo_init)) = true -> network (build ops).
Proof. intros H. by apply wf_network, reachable_wf, build_reachable. Qed.

(* 4 = x & y, 5 = x & !y, 6 = x & !5 (equivalent to 4), 7 = z & !6, 8 = !z & 6;
   outputs 7, 8: replace 6 by 4 *)
Definition rw_demo : aig := build [OpPi; OpPi; OpPi; OpAnd (a_ 1) (a_ 2); OpAnd (a_ 1) (n_ 2); OpAnd (a_ 1) (n_ 5);
  OpAnd (a_ 3) (n_ 6); OpAnd (n_ 3) (a_ 6); OpPo (a_ 7); OpPo (n_ 8)].
Lemma no_collision_check s old new : forallb (fun k : key =>
    negb (bool_decide (sidx k.1 = old) && bool_decide (k.2 = sxor new (scompl k.1))) &&
    negb (bool_decide (sidx k.2 = old) && bool_decide (k.1 = sxor new (scompl k.2)))) (ks s) = true -> no_collision s old new.
Proof.
  rewrite forallb_forall. intros H n a b c Hk. apply elem_of_list_lookup_2, elem_of_list_In, H in Hk. cbn in Hk.
  apply andb_true_iff in Hk as [H1 H2]. rewrite negb_true_iff, andb_false_iff, !bool_decide_eq_false in H1, H2.
  split; intros [-> ->]; cbn in H1, H2; tauto.
Qed.
Lemma gate_check s n : live_check s n = true -> is_gate s n.
Proof. intros H%live_check_sound. apply H. Qed.
Ltac gate V n ka kb := let H := fresh "H" in
  pose proof (val_gate _ _ _ V n ka kb ltac:(vm_compute; reflexivity) ltac:(done) ltac:(done)) as H; unfold sval in H; cbn in H.

Example C34_nonvacuous : network rw_demo /\ moderate rw_demo /\ is_combinational rw_demo = true /\
  fanouts_ok (recorded_fanouts rw_demo) rw_demo /\ replaceable rw_demo 6 (a_ 4) /\
  match local_replacement (recorded_fanouts rw_demo) 6 (a_ 4) (rw_demo, zero_v) with
  | Some (_, (s', _)) => ks s' !! 7 = Some (a_ 3, n_ 4) /\ ks s' !! 8 = Some (n_ 3, a_ 4)
  | None => False
  end.
Proof.
  assert (Hn : network rw_demo) by (apply build_network; vm_compute; reflexivity).
  split; [exact Hn|]. split; [vm_compute; reflexivity|]. split; [vm_compute; reflexivity|].
  split; [by apply (C34_recorded rw_demo rw_demo)|]. split.
  - split_and!.
    + apply gate_check. vm_compute. reflexivity.
    + vm_compute. lia.
    + intros env v V. gate V 4 (a_ 1) (a_ 2). gate V 5 (a_ 1) (n_ 2). gate V 6 (a_ 1) (n_ 5). clear V.
      unfold sval. cbn. rewrite H1, H0, H. by destruct (v 1), (v 2).
    + apply no_collision_check. vm_compute. reflexivity.
    + intros Hr. apply (closed_rtc rw_demo [4; 1; 2]) in Hr; [|vm_compute; reflexivity|constructor].
      rewrite !elem_of_cons, elem_of_nil in Hr. lia.
  - vm_compute. done.
Qed.

(* Without the condition on common fanouts: a gate both of whose fanins become the
   same signal turns into an input for the rest of the code, and its function
   into constant 0.  4 = !x & !y, 5 = x & !4 (equivalent to x), 6 = x & 5;
   replace 5 by x. *)
Definition rw_coll : aig := build [OpPi; OpPi; OpAnd (n_ 1) (n_ 2); OpAnd (a_ 1) (n_ 3); OpAnd (a_ 1) (a_ 4); OpPo (a_ 5)].
Theorem C34_collision_refuted : exists s old new d, reachable s /\ is_combinational s = true /\ is_gate s old /\ valid s new /\
  equivalent s old new /\ ~ rtc (fanin s) (sidx new) old /\
  replacement_phase 1 (recorded_fanouts s) [(old, new)] s zero_v = Some d /\
  exists env, computes s env [true] /\ computes d env [false].
Proof.
  destruct (replacement_phase 1 (recorded_fanouts rw_coll) [(4, a_ 1)] rw_coll zero_v) as [d|] eqn:E; [|exfalso; vm_compute in E; discriminate E].
  exists rw_coll, 4, (a_ 1), d.
  assert (Hr : reachable rw_coll) by (apply build_reachable; vm_compute; reflexivity).
  split; [exact Hr|]. split; [vm_compute; reflexivity|]. split; [apply gate_check; vm_compute; reflexivity|].
  split; [vm_compute; lia|]. split.
  { intros env v V. gate V 3 (n_ 1) (n_ 2). gate V 4 (a_ 1) (n_ 3). clear V. unfold sval. cbn. rewrite H0, H. by destruct (v 1), (v 2). }
  split.
  { intros Hx. apply (closed_rtc rw_coll [1]) in Hx; [|vm_compute; reflexivity|constructor]. rewrite !elem_of_cons, elem_of_nil in Hx. lia. }
  split; [exact E|].
  assert (H : match replacement_phase 1 (recorded_fanouts rw_coll) [(4, a_ 1)] rw_coll zero_v with
      | Some d => bool_decide (pos d = [Sig 0 false]) && bool_decide (ins d = [1; 2]) &&
          bool_decide (ks d = [(Sig 0 false, Sig 0 false); (Sig 0 false, Sig 0 false); (Sig 0 true, Sig 0 true)])
      | None => false end = true) by (vm_compute; reflexivity).
  rewrite E in H. clear E. rewrite !andb_true_iff, !bool_decide_eq_true in H. destruct H as [[Hpo Hin] Hks].
  exists (fun _ => true). split.
  - exists (ev rw_coll (fun _ => true)). split; [apply ev_valuation, reachable_wf, Hr|]. vm_compute. reflexivity.
  - exists (fun n => bool_decide (n <> 0)). split; [|rewrite Hpo; reflexivity]. split; [done| |].
    + rewrite Hin. intros k n Hk. apply elem_of_list_lookup_2 in Hk. rewrite !elem_of_cons, elem_of_nil in Hk.
      apply bool_decide_eq_true_2. lia.
    + rewrite Hks. intros n a b Hk _ Hab. exfalso. apply Hab.
      destruct n as [|[|[|n]]]; cbn in Hk; [by injection Hk as <- <-..|done].
Qed.
Print Assumptions C34_collision_refuted.

(* A signal that depends on the node makes the network cyclic, and the traversal
   of the cleanup does not end (or overflows the stack).  3 = x & y, 4 = x & 3
   (equivalent to 3), replace 3 by 4. *)
Definition rw_dep : aig := build [OpPi; OpPi; OpAnd (a_ 1) (a_ 2); OpAnd (a_ 1) (a_ 3); OpPo (a_ 4)].
Theorem C34_dependent_refuted : exists s old new s' v', reachable s /\ is_gate s old /\ valid s new /\ equivalent s old new /\
  no_collision s old new /\
  local_replacement (recorded_fanouts s) old new (s, zero_v) = Some (tt, (s', v')) /\ ~ acyclic s' /\
  replacement_phase 1 (recorded_fanouts s) [(old, new)] s zero_v = None.
Proof.
  destruct (local_replacement (recorded_fanouts rw_dep) 3 (a_ 4) (rw_dep, zero_v)) as [[[] [s' v']]|] eqn:E; [|exfalso; vm_compute in E; discriminate E].
  exists rw_dep, 3, (a_ 4), s', v'. split; [apply build_reachable; vm_compute; reflexivity|].
  split; [apply gate_check; vm_compute; reflexivity|]. split; [vm_compute; lia|]. split.
  { intros env v V. gate V 3 (a_ 1) (a_ 2). gate V 4 (a_ 1) (a_ 3). clear V. unfold sval. cbn. rewrite H0, H. by destruct (v 1), (v 2). }
  split; [apply no_collision_check; vm_compute; reflexivity|]. split; [exact E|]. split; [|vm_compute; reflexivity].
  assert (H : match local_replacement (recorded_fanouts rw_dep) 3 (a_ 4) (rw_dep, zero_v) with
    | Some (_, (s', _)) => bool_decide (ks s' !! 4 = Some (a_ 1, a_ 4)) | None => false end = true) by (vm_compute; reflexivity).
  rewrite E in H. apply bool_decide_eq_true in H. clear E. intros [rank Hr].
  assert (Hf : fanin s' 4 4) by (exists (a_ 1), (a_ 4); auto). specialize (Hr _ _ Hf). lia.
Qed.
Print Assumptions C34_dependent_refuted.

(* Two replacements that are each admissible in the network they were computed
   for can together make it cyclic.  x = 1, y = 2; 3 = x & y, 4 = x & !y,
   5 = x & !4, 6 = x & 5, 7 = y & 3: all of 3, 5, 6, 7 are equivalent; replace 3
   by 6 and 5 by 7. *)
Definition rw_pair : aig := build [OpPi; OpPi; OpAnd (a_ 1) (a_ 2); OpAnd (a_ 1) (n_ 2); OpAnd (a_ 1) (n_ 4); OpAnd (a_ 1) (a_ 5);
  OpAnd (a_ 2) (a_ 3); OpPo (a_ 6); OpPo (a_ 7)].
Theorem C34_pair_refuted : exists s n1 f1 n2 f2 s' v', reachable s /\ replaceable s n1 f1 /\ replaceable s n2 f2 /\
  replace_all (recorded_fanouts s) [(n1, f1); (n2, f2)] (s, zero_v) = Some (tt, (s', v')) /\ ~ acyclic s' /\
  replacement_phase 1 (recorded_fanouts s) [(n1, f1); (n2, f2)] s zero_v = None.
Proof.
  destruct (replace_all (recorded_fanouts rw_pair) [(3, a_ 6); (5, a_ 7)] (rw_pair, zero_v)) as [[[] [s' v']]|] eqn:E; [|exfalso; vm_compute in E; discriminate E].
  exists rw_pair, 3, (a_ 6), 5, (a_ 7), s', v'. split; [apply build_reachable; vm_compute; reflexivity|].
  assert (Heq : forall env v, valuation rw_pair env v -> v 3 = v 6 /\ v 5 = v 7).
  { intros env v V. gate V 3 (a_ 1) (a_ 2). gate V 4 (a_ 1) (n_ 2). gate V 5 (a_ 1) (n_ 4). gate V 6 (a_ 1) (a_ 5). gate V 7 (a_ 2) (a_ 3).
    clear V. rewrite H2, H3, H1, H0, H. destruct (v 1), (v 2); split; reflexivity. }
  split.
  { split_and!; [apply gate_check; vm_compute; reflexivity|vm_compute; lia| |apply no_collision_check; vm_compute; reflexivity|].
    - intros env v V. apply Heq in V as [V _]. unfold sval. cbn. rewrite xorb_false_r. exact V.
    - intros Hr. apply (closed_rtc rw_pair [6; 1; 5; 4; 2]) in Hr; [|vm_compute; reflexivity|constructor].
      rewrite !elem_of_cons, elem_of_nil in Hr. lia. }
  split.
  { split_and!; [apply gate_check; vm_compute; reflexivity|vm_compute; lia| |apply no_collision_check; vm_compute; reflexivity|].
    - intros env v V. apply Heq in V as [_ V]. unfold sval. cbn. rewrite xorb_false_r. exact V.
    - intros Hr. apply (closed_rtc rw_pair [7; 2; 3; 1]) in Hr; [|vm_compute; reflexivity|constructor].
      rewrite !elem_of_cons, elem_of_nil in Hr. lia. }
  split; [exact E|]. split; [|vm_compute; reflexivity].
  assert (H : match replace_all (recorded_fanouts rw_pair) [(3, a_ 6); (5, a_ 7)] (rw_pair, zero_v) with
    | Some (_, (s', _)) => bool_decide (ks s' !! 6 = Some (a_ 1, a_ 7)) && bool_decide (ks s' !! 7 = Some (a_ 2, a_ 6)) | None => false end = true)
    by (vm_compute; reflexivity).
  rewrite E in H. rewrite andb_true_iff, !bool_decide_eq_true in H. destruct H as [H6 H7]. clear E. intros [rank Hr].
  assert (Hf1 : fanin s' 6 7) by (exists (a_ 1), (a_ 7); auto). assert (Hf2 : fanin s' 7 6) by (exists (a_ 2), (a_ 6); auto).
  pose proof (Hr _ _ Hf1). pose proof (Hr _ _ Hf2). lia.
Qed.
Print Assumptions C34_pair_refuted.

(* A node that drives outputs is not replaced completely: only its first output is
   redirected, its other outputs and all gates keep using it. *)
Definition rw_po : aig := build [OpPi; OpPi; OpPi; OpAnd (a_ 1) (a_ 2); OpAnd (a_ 1) (n_ 2); OpAnd (a_ 1) (n_ 5);
  OpAnd (a_ 3) (n_ 6); OpPo (a_ 6); OpPo (n_ 6); OpPo (a_ 7)].
Theorem C34_incomplete_refuted : exists s old new s' v', reachable s /\ replaceable s old new /\
  local_replacement (recorded_fanouts s) old new (s, zero_v) = Some (tt, (s', v')) /\
  pos s' = [new; snot (Sig old false); a_ 7] /\ fanin s' 7 old.
Proof.
  destruct (local_replacement (recorded_fanouts rw_po) 6 (a_ 4) (rw_po, zero_v)) as [[[] [s' v']]|] eqn:E; [|exfalso; vm_compute in E; discriminate E].
  exists rw_po, 6, (a_ 4), s', v'. split; [apply build_reachable; vm_compute; reflexivity|].
  split.
  { split_and!; [apply gate_check; vm_compute; reflexivity|vm_compute; lia| |apply no_collision_check; vm_compute; reflexivity|].
    - intros env v V. gate V 4 (a_ 1) (a_ 2). gate V 5 (a_ 1) (n_ 2). gate V 6 (a_ 1) (n_ 5). clear V.
      unfold sval. cbn. rewrite H1, H0, H. by destruct (v 1), (v 2).
    - intros Hr. apply (closed_rtc rw_po [4; 1; 2]) in Hr; [|vm_compute; reflexivity|constructor].
      rewrite !elem_of_cons, elem_of_nil in Hr. lia. }
  split; [exact E|].
  assert (H : match local_replacement (recorded_fanouts rw_po) 6 (a_ 4) (rw_po, zero_v) with
    | Some (_, (s', _)) => bool_decide (pos s' = [a_ 4; n_ 6; a_ 7]) && bool_decide (ks s' !! 7 = Some (a_ 3, n_ 6)) | None => false end = true)
    by (vm_compute; reflexivity).
  rewrite E in H. rewrite andb_true_iff, !bool_decide_eq_true in H. destruct H as [Hp H7]. split; [exact Hp|].
  exists (a_ 3), (n_ 6). auto.
Qed.
Print Assumptions C34_incomplete_refuted.
