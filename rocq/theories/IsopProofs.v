From Verif Require Import Base Tt TtProofs Isop.

Lemma cmask_add v p c i : get_cmask (add_literal v p c) i = bool_decide (i = v) || get_cmask c i.
Proof.
  unfold get_cmask, add_literal; cbn. rewrite N.setbit_eqb.
  destruct (decide (i = v)) as [->|Hne].
  - by rewrite N.eqb_refl, bool_decide_true.
  - rewrite bool_decide_false by done. assert (N.of_nat v =? N.of_nat i = false)%N as -> by (apply N.eqb_neq; lia). done.
Qed.
Lemma cbit_add v p c i : get_cbit (add_literal v p c) i = if decide (i = v) then p else get_cbit c i.
Proof.
  unfold get_cbit, add_literal; cbn. destruct p.
  - rewrite N.setbit_eqb. case_decide as E; [subst; by rewrite N.eqb_refl|].
    assert (N.of_nat v =? N.of_nat i = false)%N as -> by (apply N.eqb_neq; lia). done.
  - rewrite N.clearbit_eqb. case_decide as E; [subst; rewrite N.eqb_refl; by rewrite andb_false_r|].
    assert (N.of_nat v =? N.of_nat i = false)%N as -> by (apply N.eqb_neq; lia). by rewrite andb_true_r.
Qed.
Lemma cmask_remove v c i : get_cmask (remove_literal v c) i = get_cmask c i && negb (bool_decide (i = v)).
Proof.
  unfold get_cmask, remove_literal; cbn. rewrite N.clearbit_eqb.
  destruct (decide (i = v)) as [->|Hne].
  - by rewrite N.eqb_refl, bool_decide_true.
  - rewrite bool_decide_false by done. assert (N.of_nat v =? N.of_nat i = false)%N as -> by (apply N.eqb_neq; lia). done.
Qed.
Lemma cbit_remove v c i : i <> v -> get_cbit (remove_literal v c) i = get_cbit c i.
Proof.
  intros Hne. unfold get_cbit, remove_literal; cbn. rewrite N.clearbit_eqb.
  assert (N.of_nat v =? N.of_nat i = false)%N as -> by (apply N.eqb_neq; lia). by rewrite andb_true_r.
Qed.

Lemma on_add v p c x : cube_below v c -> cube_on (add_literal v p c) x <-> x v = p /\ cube_on c x.
Proof.
  intros [Hm _]. unfold cube_on. split.
  - intros H. split.
    + rewrite (H v), cbit_add, decide_True; [done|done|]. rewrite cmask_add, bool_decide_true; done.
    + intros i Hi. assert (i <> v) by (apply Hm in Hi; lia).
      rewrite (H i), cbit_add, decide_False; [done|done|]. by rewrite cmask_add, Hi, orb_true_r.
  - intros [Hv Hc] i Hi. rewrite cmask_add in Hi. rewrite cbit_add. case_decide as E; [by subst|].
    rewrite bool_decide_false in Hi by done. by apply Hc.
Qed.
Lemma on_below n c x y : cube_below n c -> (forall i, i < n -> x i = y i) -> cube_on c x -> cube_on c y.
Proof. intros [Hm _] E H i Hi. rewrite <- E by (by apply Hm). by apply H. Qed.
Lemma on_upd v c x b : cube_below v c -> cube_on c (upd_var x v b) <-> cube_on c x.
Proof.
  intros Hc. split; apply (on_below v); try done; intros i Hi; unfold upd_var; by rewrite decide_False by lia.
Qed.
Lemma below_mono n m c : n <= m -> cube_below n c -> cube_below m c.
Proof. intros Hn [H1 H2]. split; [|done]. intros i Hi. apply H1 in Hi. lia. Qed.
Lemma below_add v p c : cube_below v c -> cube_below (S v) (add_literal v p c).
Proof.
  intros [H1 H2]. split; intros i; rewrite cmask_add.
  - intros [E%bool_decide_eq_true|E]%orb_true_iff; [lia|]. apply H1 in E. lia.
  - rewrite cbit_add. case_decide as E; [subst; by rewrite bool_decide_true|]. intros Hi. by rewrite (H2 i Hi), orb_true_r.
Qed.
Lemma below_one n : cube_below n cube_one.
Proof. split; intros i; done. Qed.
Lemma on_one x : cube_on cube_one x.
Proof. by intros i. Qed.

Lemma diff_wf s t : tt_wf s -> tt_wf t -> nv s = nv t -> tt_wf (tt_diff s t).
Proof. intros. unfold tt_diff. apply and_wf; [done|by apply not_wf|done]. Qed.
Lemma eval_diff s t x : tt_wf s -> tt_wf t -> nv s = nv t -> tt_eval (tt_diff s t) x = tt_eval s x && negb (tt_eval t x).
Proof. intros. unfold tt_diff. rewrite eval_and; [|done|by apply not_wf|done]. by rewrite eval_not. Qed.
Lemma diff_const0 s t : tt_wf s -> tt_wf t -> nv s = nv t ->
  tt_is_const0 (tt_diff s t) = true <-> forall x, tt_eval s x = true -> tt_eval t x = true.
Proof.
  intros Hs Ht E. rewrite is_const0_spec by (by apply diff_wf). split; intros H x; specialize (H x);
    rewrite eval_diff in * by done; destruct (tt_eval s x), (tt_eval t x); cbn in *; auto; by specialize (H eq_refl).
Qed.

Lemma dep_below_has t n : tt_wf t -> dep_below t (S n) -> tt_has_var t n = false -> dep_below t n.
Proof.
  intros Hw Hd Hv x y H. rewrite <- (proj1 (has_var_false t n Hw) Hv x (y n)).
  apply Hd. intros k Hk. unfold upd_var. case_decide; [by subst|]. apply H. lia.
Qed.
Lemma top_var_spec t d n : tt_wf t -> tt_wf d -> dep_below t n -> dep_below d n ->
  (exists v, top_var t d n = Some v /\ v < n /\ dep_below t (S v) /\ dep_below d (S v)) \/
  (dep_below t 0 /\ dep_below d 0).
Proof.
  intros Ht Hd. induction n as [|n IH]; intros Dt Dd; [by right|]. cbn [top_var].
  destruct (tt_has_var t n) eqn:E1; cbn [orb]; [left; exists n; auto with lia|].
  destruct (tt_has_var d n) eqn:E2; [left; exists n; auto with lia|].
  destruct IH as [(v & -> & Hv & ?)|?]; [by apply dep_below_has|by apply dep_below_has| |by right].
  left. exists v. split; [done|]. split; [lia|done].
Qed.

Lemma dep_cof b t v : dep_below t (S v) -> dep_below (tt_cof b t v) v.
Proof.
  intros H x y E. rewrite !eval_cof. apply H. intros k Hk. unfold upd_var. case_decide; [done|]. apply E. lia.
Qed.

Lemma isop_rec_spec fuel : forall n t d, n < fuel -> tt_wf t -> tt_wf d -> nv d = nv t -> n <= nv t ->
  dep_below t n -> dep_below d n -> (forall x, tt_eval t x = true -> tt_eval d x = true) ->
  exists r cs, isop_rec fuel t d n = Some (r, cs) /\ tt_wf r /\ nv r = nv t /\
    (forall x, tt_eval t x = true -> tt_eval r x = true) /\
    (forall x, tt_eval r x = true -> tt_eval d x = true) /\
    (forall x, tt_eval r x = true <-> covered cs x) /\
    Forall (cube_below n) cs /\ irredundant cs t /\ primes cs d.
Proof.
  induction fuel as [|fuel IH]; intros n t d Hn Ht Hd Env Hnv Dt Dd Hle; [lia|]. cbn [isop_rec].
  rewrite bool_decide_true by done. cbn [negb].
  rewrite (proj2 (diff_const0 t d Ht Hd (eq_sym Env)) Hle). cbn [negb].
  destruct (tt_is_const0 t) eqn:E0.
  { pose proof (proj1 (is_const0_spec t Ht) E0) as Z.
    exists t, []. split; [done|]. split; [done|]. split; [done|]. split; [done|]. split; [done|].
    split; [|split; [constructor|]].
    - intros x. rewrite Z. split; [done|]. intros (c & Hc & _). by apply elem_of_nil in Hc.
    - split; [intros i c Hc; by rewrite lookup_nil in Hc|]. intros c i Hc. by apply elem_of_nil in Hc. }
  destruct (tt_is_const0 (tt_not d)) eqn:E1.
  { pose proof (proj1 (is_const0_spec _ (not_wf d Hd)) E1) as Z.
    assert (Z' : forall x, tt_eval d x = true).
    { intros x. specialize (Z x). rewrite eval_not in Z by done. by destruct (tt_eval d x). }
    exists d, [cube_one]. split; [done|]. split; [done|]. split; [done|]. split; [done|]. split; [done|].
    split; [|split; [constructor; [apply below_one|constructor]|split]].
    - intros x. rewrite Z'. split; [intros _|done]. exists cube_one. split; [apply elem_of_list_here|apply on_one].
    - intros [|i] c Hc; [|done]. injection Hc as <-.
      destruct (decide (Exists (fun m => get_bit t m = true) (seq 0 (2 ^ nv t)))) as [Hex|Hno].
      + apply Exists_exists in Hex as (m & [_ Hm]%elem_of_seq & Hb). exists (Nat.testbit m).
        rewrite <- get_bit_eval by done. split; [done|]. split; [apply on_one|].
        intros [|j] c' Hj _; [done|done].
      + exfalso. rewrite (proj2 (is_const0_spec t Ht)) in E0; [done|]. intros x.
        destruct (tt_eval t x) eqn:Ex; [|done]. destruct Hno. apply Exists_exists. exists (idx (nv t) x).
        split; [|exact Ex]. apply elem_of_seq. pose proof (idx_lt (nv t) x). lia.
    - intros c i ->%elem_of_list_singleton Hi. done. }
  destruct (top_var_spec t d n Ht Hd Dt Dd) as [(v & Ev & Hv & Dt' & Dd')|[Dt0 Dd0]].
  2:{ exfalso. rewrite (proj2 (is_const0_spec _ (not_wf d Hd))) in E1; [done|]. intros x. rewrite eval_not by done.
      destruct (tt_eval d x) eqn:Ex; [done|]. rewrite (proj2 (is_const0_spec t Ht)) in E0; [done|].
      intros y. destruct (tt_eval t y) eqn:Ey; [|done]. apply Hle in Ey. rewrite (Dd0 y x) in Ey by lia. congruence. }
  rewrite Ev. cbn [mbind option_bind].
  set (t0 := tt_cof false t v). set (t1 := tt_cof true t v). set (d0 := tt_cof false d v). set (d1 := tt_cof true d v).
  assert (Wt0 : tt_wf t0) by apply cof_wf. assert (Wt1 : tt_wf t1) by apply cof_wf.
  assert (Wd0 : tt_wf d0) by apply cof_wf. assert (Wd1 : tt_wf d1) by apply cof_wf.
  assert (N0 : nv t0 = nv t) by done. assert (N1 : nv t1 = nv t) by done.
  assert (M0 : nv d0 = nv t) by done. assert (M1 : nv d1 = nv t) by done.
  assert (Dt0 : dep_below t0 v) by (by apply dep_cof). assert (Dt1 : dep_below t1 v) by (by apply dep_cof).
  assert (Dd0 : dep_below d0 v) by (by apply dep_cof). assert (Dd1 : dep_below d1 v) by (by apply dep_cof).
  assert (Et : forall x, tt_eval t x = if x v then tt_eval t1 x else tt_eval t0 x).
  { intros x. unfold t0, t1. rewrite !eval_cof. destruct (x v) eqn:Ex; apply eval_ext; intros k _; unfold upd_var;
      case_decide; subst; done. }
  assert (Ed : forall x, tt_eval d x = if x v then tt_eval d1 x else tt_eval d0 x).
  { intros x. unfold d0, d1. rewrite !eval_cof. destruct (x v) eqn:Ex; apply eval_ext; intros k _; unfold upd_var;
      case_decide; subst; done. }
  assert (L0 : forall x, tt_eval t0 x = true -> tt_eval d0 x = true) by (intros x; unfold t0, d0; rewrite !eval_cof; apply Hle).
  assert (L1 : forall x, tt_eval t1 x = true -> tt_eval d1 x = true) by (intros x; unfold t1, d1; rewrite !eval_cof; apply Hle).
  clearbody t0 t1 d0 d1.
  assert (P0 : forall x, tt_eval (tt_diff t0 d1) x = tt_eval t0 x && negb (tt_eval d1 x)) by (intros; apply eval_diff; congruence).
  assert (P1 : forall x, tt_eval (tt_diff t1 d0) x = tt_eval t1 x && negb (tt_eval d0 x)) by (intros; apply eval_diff; congruence).
  destruct (IH v (tt_diff t0 d1) d0) as (r0 & c0 & -> & Wr0 & Nr0 & A0 & B0 & C0 & F0 & I0 & Q0);
    [lia|apply diff_wf; congruence|done|cbn; congruence|cbn; lia| |done| |].
  { intros x y E. rewrite !P0. by rewrite (Dt0 x y), (Dd1 x y). }
  { intros x. rewrite P0. intros [H _]%andb_true_iff. by apply L0. }
  cbn [mbind option_bind].
  destruct (IH v (tt_diff t1 d0) d1) as (r1 & c1 & -> & Wr1 & Nr1 & A1 & B1 & C1 & F1 & I1 & Q1);
    [lia|apply diff_wf; congruence|done|cbn; congruence|cbn; lia| |done| |].
  { intros x y E. rewrite !P1. by rewrite (Dt1 x y), (Dd0 x y). }
  { intros x. rewrite P1. intros [H _]%andb_true_iff. by apply L1. }
  cbn [mbind option_bind]. cbn in Nr0, Nr1.
  assert (W01 : tt_wf (tt_diff t0 r0)) by (apply diff_wf; congruence).
  assert (W11 : tt_wf (tt_diff t1 r1)) by (apply diff_wf; congruence).
  assert (P2 : forall x, tt_eval (tt_or (tt_diff t0 r0) (tt_diff t1 r1)) x =
    (tt_eval t0 x && negb (tt_eval r0 x)) || (tt_eval t1 x && negb (tt_eval r1 x))).
  { intros x. rewrite eval_or; [|done|done|cbn; congruence]. rewrite !eval_diff by congruence. done. }
  assert (P3 : forall x, tt_eval (tt_and d0 d1) x = tt_eval d0 x && tt_eval d1 x) by (intros; apply eval_and; congruence).
  assert (Dr : forall r cs, (forall x, tt_eval r x = true <-> covered cs x) -> Forall (cube_below v) cs -> dep_below r v).
  { intros r cs Hr Hf x y E. apply eq_bool_prop_intro. rewrite !Is_true_true. rewrite !Hr. rewrite Forall_forall in Hf.
    split; intros (c & Hc & Ho); exists c; (split; [done|]); eapply (on_below v); [by apply Hf| |exact Ho|by apply Hf| |exact Ho]; intros i Hi; [by apply E|symmetry; by apply E]. }
  destruct (IH v (tt_or (tt_diff t0 r0) (tt_diff t1 r1)) (tt_and d0 d1)) as (r2 & c2 & -> & Wr2 & Nr2 & A2 & B2 & C2 & F2 & I2 & Q2).
  { lia. } { apply or_wf; [done|done|cbn; congruence]. } { apply and_wf; congruence. } { cbn. congruence. } { cbn; lia. }
  { intros x y E. rewrite !P2. by rewrite (Dt0 x y), (Dt1 x y), (Dr r0 c0 C0 F0 x y), (Dr r1 c1 C1 F1 x y). }
  { intros x y E. rewrite !P3. by rewrite (Dd0 x y), (Dd1 x y). }
  { intros x. rewrite P2, P3. specialize (L0 x). specialize (L1 x). specialize (A0 x). specialize (A1 x). rewrite P0 in A0. rewrite P1 in A1.
    destruct (tt_eval t0 x), (tt_eval t1 x), (tt_eval d0 x), (tt_eval d1 x), (tt_eval r0 x), (tt_eval r1 x); cbn in *; first [done|auto; fail|discriminate (L0 eq_refl)|discriminate (L1 eq_refl)|discriminate (A0 eq_refl)|discriminate (A1 eq_refl)]. }
  cbn [mbind option_bind]. cbn in Nr2. rewrite N0 in Nr2.
  assert (Wv : tt_wf (tt_var (nv t) v)) by apply var_wf.
  assert (Wnv : tt_wf (tt_not (tt_var (nv t) v))) by (by apply not_wf).
  assert (Wa : tt_wf (tt_and r0 (tt_not (tt_var (nv t) v)))) by (apply and_wf; [done|done|cbn; congruence]).
  assert (Wb : tt_wf (tt_and r1 (tt_var (nv t) v))) by (apply and_wf; [done|done|cbn; congruence]).
  assert (Wo : tt_wf (tt_or (tt_and r0 (tt_not (tt_var (nv t) v))) (tt_and r1 (tt_var (nv t) v)))) by (apply or_wf; [done|done|cbn; congruence]).
  set (r := tt_or r2 _).
  assert (Wr : tt_wf r) by (apply or_wf; [done|done|cbn; congruence]).
  assert (Nr : nv r = nv t) by (cbn; congruence).
  assert (Er : forall x, tt_eval r x = tt_eval r2 x || (if x v then tt_eval r1 x else tt_eval r0 x)).
  { intros x. unfold r. rewrite eval_or; [|done|done|cbn; congruence]. f_equal.
    rewrite eval_or; [|done|done|cbn; congruence]. rewrite !eval_and; [|done|done|cbn; congruence|done|done|cbn; congruence].
    rewrite eval_not by done. rewrite eval_var by lia. destruct (x v); cbn; by rewrite ?andb_false_r, ?andb_true_r, ?orb_false_r. }
  clearbody r.
  assert (U1 : forall x, tt_eval t x = true -> tt_eval r x = true).
  { intros x. rewrite Et, Er. specialize (A2 x). rewrite P2 in A2.
    destruct (x v), (tt_eval t0 x), (tt_eval t1 x), (tt_eval r0 x), (tt_eval r1 x), (tt_eval r2 x); cbn in *; first [done|discriminate (A2 eq_refl)]. }
  assert (U2 : forall x, tt_eval r x = true -> tt_eval d x = true).
  { intros x. rewrite Ed, Er. specialize (B2 x). rewrite P3 in B2. specialize (B0 x). specialize (B1 x).
    destruct (x v), (tt_eval r0 x), (tt_eval r1 x), (tt_eval r2 x), (tt_eval d0 x), (tt_eval d1 x); cbn in *; first [done|discriminate (B2 eq_refl)|discriminate (B0 eq_refl)|discriminate (B1 eq_refl)]. }
  rewrite (proj2 (diff_const0 t r Ht Wr (eq_sym Nr)) U1). cbn [negb].
  rewrite (proj2 (diff_const0 r d Wr Hd ltac:(congruence)) U2). cbn [negb].
  eexists _, _. split; [reflexivity|]. split; [done|]. split; [done|]. split; [done|]. split; [done|].
  assert (F0' := F0). assert (F1' := F1). assert (F2' := F2). rewrite Forall_forall in F0', F1', F2'.
  assert (G0 : forall k c, c0 !! k = Some c -> cube_below v c) by (intros k c Hc; apply F0'; by eapply elem_of_list_lookup_2).
  assert (G1 : forall k c, c1 !! k = Some c -> cube_below v c) by (intros k c Hc; apply F1'; by eapply elem_of_list_lookup_2).
  assert (G2 : forall k c, c2 !! k = Some c -> cube_below v c) by (intros k c Hc; apply F2'; by eapply elem_of_list_lookup_2).
  (* membership in the result, by position *)
  assert (LK : forall i c, (map (add_literal v false) c0 ++ map (add_literal v true) c1 ++ c2) !! i = Some c ->
    (exists c', c0 !! i = Some c' /\ c = add_literal v false c') \/
    (exists k c', i = length c0 + k /\ c1 !! k = Some c' /\ c = add_literal v true c') \/
    (exists k, i = length c0 + length c1 + k /\ c2 !! k = Some c)).
  { intros i c [H|[Hl H]]%lookup_app_Some.
    - rewrite list_lookup_fmap in H. apply fmap_Some in H as (c' & ? & ?). left. eauto.
    - apply lookup_app_Some in H as [H|[Hl' H]].
      + rewrite list_lookup_fmap in H. apply fmap_Some in H as (c' & ? & ?). right; left.
        rewrite map_length in *. exists (i - length c0), c'. split; [lia|done].
      + right; right. rewrite !map_length in *. eexists. split; [|exact H]. lia. }
  split; [|split; [|split]].
  - intros x. rewrite Er. unfold covered. setoid_rewrite elem_of_app. setoid_rewrite elem_of_app.
    setoid_rewrite elem_of_list_fmap. rewrite orb_true_iff. split.
    + intros [H|H].
      * apply C2 in H as (c & Hc & Ho). eauto.
      * destruct (x v) eqn:Ex; [apply C1 in H as (c & Hc & Ho)|apply C0 in H as (c & Hc & Ho)];
          (eexists; split; [|apply on_add; [|split; [exact Ex|exact Ho]]; auto]); eauto.
    + intros (c & [(c' & -> & Hc)|[(c' & -> & Hc)|Hc]] & Ho).
      * apply on_add in Ho as [Ex Ho]; [|auto]. rewrite Ex. right. apply C0. by exists c'.
      * apply on_add in Ho as [Ex Ho]; [|auto]. rewrite Ex. right. apply C1. by exists c'.
      * left. apply C2. by exists c.
  - apply Forall_forall. intros c. rewrite !elem_of_app. intros [(c' & -> & Hc)%elem_of_list_fmap|[(c' & -> & Hc)%elem_of_list_fmap|Hc]].
    + eapply below_mono; [|apply below_add; auto]. lia.
    + eapply below_mono; [|apply below_add; auto]. lia.
    + eapply below_mono; [|auto]. lia.
  - intros i c Hc. apply LK in Hc as [(c' & Hc & ->)|[(k & c' & -> & Hc & ->)|(k & -> & Hc)]].
    + destruct (I0 i c' Hc) as (x & Hx & Ho & Hu). rewrite P0 in Hx. apply andb_true_iff in Hx as [Hx1 Hx2].
      exists (upd_var x v false).
      assert (Evv : upd_var x v false v = false) by (unfold upd_var; by rewrite decide_True).
      assert (Eq : forall k, k < v -> upd_var x v false k = x k) by (intros; unfold upd_var; by rewrite decide_False by lia).
      split; [rewrite Et, Evv, (Dt0 _ x Eq); done|]. split; [apply on_add; [eauto|]; split; [done|]; apply on_upd; eauto|].
      intros j cj Hj Hoj. apply LK in Hj as [(c'' & Hj & ->)|[(k & c'' & -> & Hj & ->)|(k & -> & Hj)]].
      * apply on_add in Hoj as [_ Hoj]; [|eauto]. apply (Hu j c''); [done|]. eapply on_upd; eauto.
      * apply on_add in Hoj as [Hoj _]; [|eauto]. congruence.
      * exfalso. assert (tt_eval r2 x = true) as H2.
        { apply C2. exists cj. split; [by eapply elem_of_list_lookup_2|]. eapply on_upd; eauto. }
        apply B2 in H2. rewrite P3 in H2. apply andb_true_iff in H2 as [_ H2]. by rewrite H2 in Hx2.
    + destruct (I1 k c' Hc) as (x & Hx & Ho & Hu). rewrite P1 in Hx. apply andb_true_iff in Hx as [Hx1 Hx2].
      exists (upd_var x v true).
      assert (Evv : upd_var x v true v = true) by (unfold upd_var; by rewrite decide_True).
      assert (Eq : forall k, k < v -> upd_var x v true k = x k) by (intros; unfold upd_var; by rewrite decide_False by lia).
      split; [rewrite Et, Evv, (Dt1 _ x Eq); done|]. split; [apply on_add; [eauto|]; split; [done|]; apply on_upd; eauto|].
      intros j cj Hj Hoj. apply LK in Hj as [(c'' & Hj & ->)|[(k' & c'' & -> & Hj & ->)|(k' & -> & Hj)]].
      * apply on_add in Hoj as [Hoj _]; [|eauto]. congruence.
      * apply on_add in Hoj as [_ Hoj]; [|eauto]. f_equal. apply (Hu k' c''); [done|]. eapply on_upd; eauto.
      * exfalso. assert (tt_eval r2 x = true) as H2.
        { apply C2. exists cj. split; [by eapply elem_of_list_lookup_2|]. eapply on_upd; eauto. }
        apply B2 in H2. rewrite P3 in H2. apply andb_true_iff in H2 as [H2 _]. by rewrite H2 in Hx2.
    + destruct (I2 k c Hc) as (x & Hx & Ho & Hu). rewrite P2 in Hx.
      assert (exists b : bool, (if b then tt_eval t1 x else tt_eval t0 x) = true /\ (if b then tt_eval r1 x else tt_eval r0 x) = false) as (b & Hb1 & Hb2).
      { apply orb_true_iff in Hx as [[? ?%negb_true_iff]%andb_true_iff|[? ?%negb_true_iff]%andb_true_iff]; [by exists false|by exists true]. }
      exists (upd_var x v b).
      assert (Evv : upd_var x v b v = b) by (unfold upd_var; by rewrite decide_True).
      assert (Eq : forall k, k < v -> upd_var x v b k = x k) by (intros; unfold upd_var; by rewrite decide_False by lia).
      split; [rewrite Et, Evv, (Dt0 _ x Eq), (Dt1 _ x Eq); done|]. split; [apply on_upd; eauto|].
      intros j cj Hj Hoj. apply LK in Hj as [(c'' & Hj & ->)|[(k' & c'' & -> & Hj & ->)|(k' & -> & Hj)]].
      * exfalso. apply on_add in Hoj as [Hv0 Hoj]; [|eauto]. rewrite Evv in Hv0. subst b.
        assert (tt_eval r0 x = true); [|congruence]. apply C0. exists c''. split; [by eapply elem_of_list_lookup_2|]. eapply on_upd; eauto.
      * exfalso. apply on_add in Hoj as [Hv0 Hoj]; [|eauto]. rewrite Evv in Hv0. subst b.
        assert (tt_eval r1 x = true); [|congruence]. apply C1. exists c''. split; [by eapply elem_of_list_lookup_2|]. eapply on_upd; eauto.
      * f_equal. apply (Hu k' cj); [done|]. eapply on_upd; eauto.
  - (* removing a literal of a cube of a half *)
    assert (RM : forall p c i, cube_below v c -> get_cmask c i = true -> forall x,
      cube_on (remove_literal i c) x -> cube_on (remove_literal i (add_literal v p c)) (upd_var x v p)).
    { intros p c i [Hb1 Hb2] Hi x Ho k Hk. rewrite cmask_remove in Hk. apply andb_true_iff in Hk as [Hk1 Hk2%negb_true_iff].
      rewrite bool_decide_eq_false in Hk2. rewrite cbit_remove, cbit_add by done. unfold upd_var. case_decide as E; [done|].
      rewrite cmask_add, bool_decide_false in Hk1 by done. cbn in Hk1. rewrite <- (cbit_remove i) by done. apply Ho.
      rewrite cmask_remove, Hk1, bool_decide_false; done. }
    intros c i. rewrite !elem_of_app. intros Hc Hi.
    destruct Hc as [(c' & -> & Hc)%elem_of_list_fmap|[(c' & -> & Hc)%elem_of_list_fmap|Hc]].
    + rewrite cmask_add in Hi. apply orb_true_iff in Hi as [->%bool_decide_eq_true|Hi].
      * apply elem_of_list_lookup in Hc as (k & Hk). destruct (I0 k c' Hk) as (x & Hx & Ho & _).
        rewrite P0 in Hx. apply andb_true_iff in Hx as [_ Hx%negb_true_iff]. exists (upd_var x v true). split.
        { intros j Hj. rewrite cmask_remove, cmask_add in Hj. apply andb_true_iff in Hj as [Hj1 Hj2%negb_true_iff].
          rewrite Hj2 in Hj1. rewrite bool_decide_eq_false in Hj2. cbn in Hj1.
          rewrite cbit_remove, cbit_add, decide_False by done. unfold upd_var. rewrite decide_False by done. by apply Ho. }
        { rewrite Ed. unfold upd_var at 1. rewrite decide_True by done. rewrite <- Hx. apply Dd1. intros j Hj.
          unfold upd_var. by rewrite decide_False by lia. }
      * destruct (Q0 c' i Hc Hi) as (x & Ho & Hx). exists (upd_var x v false). split; [apply RM; eauto|].
        rewrite Ed. unfold upd_var at 1. rewrite decide_True by done. rewrite <- Hx. apply Dd0. intros j Hj.
        unfold upd_var. by rewrite decide_False by lia.
    + rewrite cmask_add in Hi. apply orb_true_iff in Hi as [->%bool_decide_eq_true|Hi].
      * apply elem_of_list_lookup in Hc as (k & Hk). destruct (I1 k c' Hk) as (x & Hx & Ho & _).
        rewrite P1 in Hx. apply andb_true_iff in Hx as [_ Hx%negb_true_iff]. exists (upd_var x v false). split.
        { intros j Hj. rewrite cmask_remove, cmask_add in Hj. apply andb_true_iff in Hj as [Hj1 Hj2%negb_true_iff].
          rewrite Hj2 in Hj1. rewrite bool_decide_eq_false in Hj2. cbn in Hj1.
          rewrite cbit_remove, cbit_add, decide_False by done. unfold upd_var. rewrite decide_False by done. by apply Ho. }
        { rewrite Ed. unfold upd_var at 1. rewrite decide_True by done. rewrite <- Hx. apply Dd0. intros j Hj.
          unfold upd_var. by rewrite decide_False by lia. }
      * destruct (Q1 c' i Hc Hi) as (x & Ho & Hx). exists (upd_var x v true). split; [apply RM; eauto|].
        rewrite Ed. unfold upd_var at 1. rewrite decide_True by done. rewrite <- Hx. apply Dd1. intros j Hj.
        unfold upd_var. by rewrite decide_False by lia.
    + destruct (Q2 c i Hc Hi) as (x & Ho & Hx). rewrite P3 in Hx.
      assert (exists b : bool, (if b then tt_eval d1 x else tt_eval d0 x) = false) as (b & Hb).
      { apply andb_false_iff in Hx as [?|?]; [by exists false|by exists true]. }
      exists (upd_var x v b). split.
      * destruct (F2' c Hc) as [Hb1 _]. intros j Hj. unfold upd_var. case_decide as E.
        { subst. rewrite cmask_remove in Hj. apply andb_true_iff in Hj as [Hj _]. apply Hb1 in Hj. lia. }
        by apply Ho.
      * rewrite Ed. unfold upd_var at 1. rewrite decide_True by done. rewrite <- Hb.
        assert (Eq : forall k, k < v -> upd_var x v b k = x k) by (intros; unfold upd_var; by rewrite decide_False by lia).
        by rewrite (Dd0 _ _ Eq), (Dd1 _ _ Eq).
Qed.

Lemma isop_spec t : tt_wf t -> exists cs, isop t = Some cs /\
  (forall x, tt_eval t x = true <-> covered cs x) /\ Forall (cube_below (nv t)) cs /\ irredundant cs t /\ primes cs t.
Proof.
  intros Ht. unfold isop.
  destruct (isop_rec_spec (S (nv t)) (nv t) t t) as (r & cs & -> & _ & _ & A & B & C & D & E);
    [lia|done|done|done|done|apply dep_below_nv|apply dep_below_nv|done|].
  exists cs. split; [done|]. split; [|done]. intros x. rewrite <- C. split; auto.
Qed.

Lemma clause_spec n out c x : cube_below n c ->
  clause_on (cnf_clause n out c) x <-> (cube_on c x -> x n = out).
Proof.
  intros [Hb1 Hb2].
  assert (Em : forall i, get_cmask (cnf_clause n out c) i = bool_decide (i = n) || get_cmask c i)
    by (intros i; unfold cnf_clause; by rewrite cmask_add).
  assert (Eb : forall i, get_cbit (cnf_clause n out c) i = if decide (i = n) then out else get_cmask c i && negb (get_cbit c i)).
  { intros i. unfold cnf_clause. rewrite cbit_add. case_decide; [done|]. unfold get_cbit, get_cmask; cbn. by rewrite N.ldiff_spec. }
  unfold clause_on. setoid_rewrite Em. setoid_rewrite Eb. split.
  - intros (i & [->%bool_decide_eq_true|Hi]%orb_true_iff & Hx) Ho.
    + by rewrite decide_True in Hx.
    + rewrite decide_False in Hx by (apply Hb1 in Hi; lia). rewrite Hi, (Ho i Hi) in Hx. by destruct (get_cbit c i).
  - intros H.
    destruct (decide (Exists (fun i => get_cmask c i = true /\ x i <> get_cbit c i) (seq 0 n))) as [Hex|Hno].
    + apply Exists_exists in Hex as (i & [_ Hin]%elem_of_seq & Hi & Hx). exists i. split; [by rewrite Hi, orb_true_r|].
      rewrite decide_False by lia. rewrite Hi. by destruct (x i), (get_cbit c i).
    + exists n. split; [by rewrite bool_decide_true|]. rewrite decide_True by done. apply H. intros i Hi.
      destruct (decide (x i = get_cbit c i)) as [?|Hne]; [done|]. destruct Hno. apply Exists_exists. exists i.
      split; [|done]. apply elem_of_seq. apply Hb1 in Hi. lia.
Qed.

Lemma cnf_characteristic_spec t : tt_wf t -> exists cs, cnf_characteristic t = Some cs /\
  Forall (fun c => forall i, get_cmask c i = true -> i <= nv t) cs /\
  forall x, (forall c, c ∈ cs -> clause_on c x) <-> x (nv t) = tt_eval t x.
Proof.
  intros Ht. unfold cnf_characteristic.
  destruct (isop_rec_spec (S (nv t)) (nv t) t t) as (r & c1 & -> & _ & _ & A1 & B1 & C1 & D1 & _);
    [lia|done|done|done|done|apply dep_below_nv|apply dep_below_nv|done|]. cbn [mbind option_bind].
  destruct (isop_rec_spec (S (nv t)) (nv t) (tt_not t) (tt_not t)) as (r' & c0 & -> & _ & _ & A0 & B0 & C0 & D0 & _);
    [lia|by apply not_wf|by apply not_wf|done|done|apply (dep_below_nv (tt_not t))|apply (dep_below_nv (tt_not t))|done|].
  cbn [mbind option_bind]. eexists. split; [reflexivity|]. cbn in D0.
  rewrite Forall_forall in D1, D0. split.
  { apply Forall_forall. intros c [(c' & -> & Hc)%elem_of_list_fmap|(c' & -> & Hc)%elem_of_list_fmap]%elem_of_app i;
      unfold cnf_clause; rewrite cmask_add; intros [->%bool_decide_eq_true|Hi]%orb_true_iff; try lia;
      [apply D1 in Hc as [Hc _]|apply D0 in Hc as [Hc _]]; apply Hc in Hi; lia. }
  intros x.
  assert (E1 : tt_eval t x = true <-> covered c1 x) by (rewrite <- C1; split; auto).
  assert (E0 : tt_eval t x = false <-> covered c0 x).
  { rewrite <- C0. assert (tt_eval (tt_not t) x = negb (tt_eval t x)) as En by (by apply eval_not). split.
    - intros E. apply A0. by rewrite En, E.
    - intros E. apply B0 in E. rewrite En in E. by destruct (tt_eval t x). }
  split.
  - intros H. destruct (tt_eval t x) eqn:Ex.
    + destruct (proj1 E1 eq_refl) as (c & Hc & Ho). specialize (H (cnf_clause (nv t) true c)).
      rewrite clause_spec in H by (by apply D1). apply H; [|done]. apply elem_of_app; left. by apply elem_of_list_fmap_1.
    + destruct (proj1 E0 eq_refl) as (c & Hc & Ho). specialize (H (cnf_clause (nv t) false c)).
      rewrite clause_spec in H by (by apply D0). apply H; [|done]. apply elem_of_app; right. by apply elem_of_list_fmap_1.
  - intros Hx c [(c' & -> & Hc)%elem_of_list_fmap|(c' & -> & Hc)%elem_of_list_fmap]%elem_of_app.
    + apply clause_spec; [by apply D1|]. intros Ho. rewrite Hx. apply E1. by exists c'.
    + apply clause_spec; [by apply D0|]. intros Ho. rewrite Hx. apply E0. by exists c'.
Qed.
