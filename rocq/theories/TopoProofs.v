(* Correctness of the depth-first search of Topo.v. *)
From Verif Require Import Base Topo.

Section topo.
Variables (fan : nat -> option (list nat)) (N tid : nat) (rank : nat -> nat).
Hypothesis Htid : 2 <= tid.
Hypothesis Htot : forall n, n < N -> is_Some (fan n).
Hypothesis Hcl : forall n c, n < N -> edge fan n c -> c < N.
Hypothesis Hrank : forall n c, n < N -> edge fan n c -> rank c < rank n.

Definition unm (ms : list nat) : nat := length (filter (fun v => v <> tid /\ v <> tid - 1) ms).

Lemma unm_insert ms n v w : ms !! n = Some v ->
  unm (<[n := w]> ms) + (if decide (v <> tid /\ v <> tid - 1) then 1 else 0)
  = unm ms + (if decide (w <> tid /\ w <> tid - 1) then 1 else 0).
Proof.
  intros H. unfold unm.
  rewrite <- (take_drop_middle ms n v H) at 2.
  rewrite insert_take_drop by (by eapply lookup_lt_Some).
  rewrite !filter_app, !filter_cons, !app_length.
  destruct (decide (v <> tid /\ v <> tid - 1)), (decide (w <> tid /\ w <> tid - 1)); cbn; lia.
Qed.

Lemma unm_le ms : unm ms <= length ms.
Proof. unfold unm. apply filter_length. Qed.

Record tinv (x : tst) : Prop := {
  ti_len : length x.1 = N;
  ti_perm : forall m, x.1 !! m = Some tid <-> m ∈ x.2;
  ti_nodup : NoDup x.2;
  ti_after : forall i n c, x.2 !! i = Some n -> edge fan n c -> exists j, j < i /\ x.2 !! j = Some c
}.

Definition temps_eq (x x' : tst) : Prop := forall m, x'.1 !! m = Some (tid - 1) <-> x.1 !! m = Some (tid - 1).

Definition tpost (n : nat) (x x' : tst) : Prop :=
  tinv x' /\ temps_eq x x' /\ unm x'.1 <= unm x.1 /\
  n ∈ x'.2 /\
  exists ext, x'.2 = x.2 ++ ext /\ forall m, m ∈ ext -> rtc (edge fan) n m /\ m < N.

Definition tposts (l : list nat) (x x' : tst) : Prop :=
  tinv x' /\ temps_eq x x' /\ unm x'.1 <= unm x.1 /\
  (forall n, n ∈ l -> n ∈ x'.2) /\
  exists ext, x'.2 = x.2 ++ ext /\ forall m, m ∈ ext -> (exists r, r ∈ l /\ rtc (edge fan) r m) /\ m < N.

Lemma tposts_mapM (f : nat -> M tst unit) l : forall x, tinv x ->
  (forall n x0, n ∈ l -> tinv x0 -> temps_eq x x0 -> unm x0.1 <= unm x.1 -> wp (f n) x0 (fun _ x' => tpost n x0 x')) ->
  wp (mapM f l) x (fun _ x' => tposts l x x').
Proof.
  induction l as [|n l IH]; intros x Hx Hf; cbn [mapM].
  - apply wp_ret. split; [done|]. split; [done|]. split; [lia|]. split; [by intros n ?%elem_of_nil|].
    exists []. rewrite app_nil_r. split; [done|]. by intros m ?%elem_of_nil.
  - apply wp_bnd. eapply wp_mono; [apply Hf; [apply elem_of_list_here|done|done|lia]|].
    intros u1 x1 (H1 & Ht1 & Hu1 & Hn1 & ext1 & He1 & Hr1). cbn beta.
    apply wp_bnd. eapply wp_mono; [apply IH; [done|]|].
    + intros m x0 Hm Hx0 Ht0 Hu0. apply Hf; [by apply elem_of_list_further|done| |lia].
      intros k. rewrite (Ht0 k). apply Ht1.
    + intros u2 x2 (H2 & Ht2 & Hu2 & Hn2 & ext2 & He2 & Hr2). cbn beta. apply wp_ret.
      split; [done|]. split; [intros k; rewrite (Ht2 k); apply Ht1|]. split; [lia|]. split.
      * intros k [->|Hk]%elem_of_cons; [|by apply Hn2]. rewrite He2. apply elem_of_app. by left.
      * exists (ext1 ++ ext2). rewrite He2, He1, app_assoc. split; [done|].
        intros m [Hm|Hm]%elem_of_app.
        -- destruct (Hr1 m Hm). split; [|done]. exists n. split; [apply elem_of_list_here|done].
        -- destruct (Hr2 m Hm) as [(r & Hr & Hrm) ?]. split; [|done]. exists r. split; [by apply elem_of_list_further|done].
Qed.

Lemma topo_rec_spec fuel : forall n x, tinv x -> n < N ->
  (forall m, x.1 !! m = Some (tid - 1) -> rank n < rank m) ->
  unm x.1 < fuel ->
  wp (topo_rec fan tid fuel n) x (fun _ x' => tpost n x x').
Proof using All.
  induction fuel as [|fuel IH]; [lia|]; intros n x Hx Hn Htmp Hu. cbn [topo_rec].
  destruct (lookup_lt_is_Some_2 x.1 n) as [v Hv]; [by rewrite (ti_len _ Hx)|].
  unfold wp. rewrite Hv. cbn. destruct (decide (v = tid)) as [->|Hvt].
  - split; [done|]. split; [done|]. split; [lia|]. split; [by apply (ti_perm _ Hx)|].
    exists []. rewrite app_nil_r. split; [done|]. by intros m ?%elem_of_nil.
  - destruct (decide (v = tid - 1)) as [->|Hvt'].
    { specialize (Htmp n Hv). lia. }
    destruct (Htot n Hn) as [cs Hcs]. rewrite Hcs. cbn.
    set (x0 := (<[n := tid - 1]> x.1, x.2) : tst).
    assert (Hx0 : tinv x0).
    { split; cbn.
      - rewrite insert_length. apply Hx.
      - intros m. rewrite <- (ti_perm _ Hx m). destruct (decide (m = n)) as [->|Hne].
        + rewrite list_lookup_insert by (by eapply lookup_lt_Some). rewrite Hv. split; intros E0; exfalso; [|congruence]. assert (tid - 1 = tid) by congruence; lia.
        + by rewrite list_lookup_insert_ne.
      - apply Hx.
      - apply Hx. }
    assert (Hu0 : unm x0.1 < fuel).
    { pose proof (unm_insert x.1 n v (tid - 1) Hv) as E. change x0.1 with (<[n := tid - 1]> x.1).
      rewrite decide_True in E by done. rewrite decide_False in E by (intros [? ?]; done). lia. }
    assert (Ht0 : forall m, x0.1 !! m = Some (tid - 1) <-> m = n \/ x.1 !! m = Some (tid - 1)).
    { intros m. cbn. destruct (decide (m = n)) as [->|Hne].
      - rewrite list_lookup_insert by (by eapply lookup_lt_Some). split; [by left|done].
      - rewrite list_lookup_insert_ne by done. split; [by right|intros [?|?]; done]. }
    pose proof (tposts_mapM (topo_rec fan tid fuel) cs x0 Hx0) as HM.
    assert (Hed : forall c, c ∈ cs -> edge fan n c) by (intros c Hc; by exists cs).
    destruct (wp_elim _ _ _ (HM ltac:(
      intros c y Hc Hy Hty Huy; apply IH;
        [done|eapply Hcl; [exact Hn|by apply Hed]| |lia];
        intros m Hm%Hty%Ht0; specialize (Hrank n c Hn (Hed c Hc));
        destruct Hm as [-> | Hm]; [done|]; specialize (Htmp m Hm); lia)))
      as (u & x1 & E & Hx1 & Ht1 & Hu1 & Hin1 & ext & Hext & Hr).
    rewrite E. cbn.
    assert (Hlen : n < length x1.1) by (by rewrite (ti_len _ Hx1)).
    assert (Hn1 : x1.1 !! n = Some (tid - 1)) by (apply Ht1, Ht0; by left).
    split; [|split; [|split; [|split]]].
    + split; cbn.
      * rewrite insert_length. apply Hx1.
      * intros m. rewrite elem_of_app, elem_of_list_singleton, <- (ti_perm _ Hx1 m).
        destruct (decide (m = n)) as [->|Hne].
        -- rewrite list_lookup_insert by done. split; [by right|done].
        -- rewrite list_lookup_insert_ne by done. split; [by left|intros [?|?]; done].
      * apply NoDup_app. split; [apply Hx1|]. split; [|apply NoDup_singleton].
        intros m Hm%(ti_perm _ Hx1) ->%elem_of_list_singleton. rewrite Hn1 in Hm. injection Hm. lia.
      * intros i k c. destruct (decide (i < length x1.2)) as [Hi|Hi].
        -- rewrite lookup_app_l by done. intros H1 H2.
           destruct (ti_after _ Hx1 i k c H1 H2) as (j & Hj & Hj'). exists j. split; [done|].
           rewrite lookup_app_l by lia. done.
        -- rewrite lookup_app_r by lia. intros H1 H2.
           apply list_lookup_singleton_Some in H1 as [H0 <-].
           destruct H2 as (l & Hl & Hc). rewrite Hcs in Hl. injection Hl as <-.
           apply Hin1 in Hc. apply elem_of_list_lookup in Hc as [j Hj]. exists j.
           pose proof (lookup_lt_Some _ _ _ Hj). split; [lia|]. by rewrite lookup_app_l.
    + intros m. cbn. destruct (decide (m = n)) as [->|Hne].
      * rewrite list_lookup_insert by done. rewrite Hv. split; intros E0; exfalso; [|congruence]. assert (tid - 1 = tid) by congruence; lia.
      * rewrite list_lookup_insert_ne by done. rewrite (Ht1 m), (Ht0 m). split; [intros [?|?]; done|by right].
    + change ((_, _).1) with (<[n := tid]> x1.1). pose proof (unm_insert x1.1 n (tid - 1) tid Hn1) as E1.
      rewrite decide_False in E1 by (intros [? ?]; done). rewrite decide_False in E1 by (intros [? ?]; done).
      pose proof (unm_insert x.1 n v (tid - 1) Hv) as E2. change x0.1 with (<[n := tid - 1]> x.1) in Hu1.
      rewrite decide_True in E2 by done. rewrite decide_False in E2 by (intros [? ?]; done). lia.
    + cbn. apply elem_of_app. right. apply elem_of_list_here.
    + exists (ext ++ [n]). cbn. rewrite Hext. cbn. rewrite app_assoc. split; [done|].
      intros m [Hm|Hm]%elem_of_app.
      * destruct (Hr m Hm) as [(r & Hrc & Hrm) HmN]. split; [|done].
        eapply rtc_l; [by apply Hed|done].
      * apply elem_of_list_singleton in Hm as ->. split; [apply rtc_refl|done].
Qed.

(* sources *)
Lemma topo_source_spec x n : tinv x -> n < N -> (forall c, ~ edge fan n c) -> n ∉ x.2 ->
  (forall m, x.1 !! m <> Some (tid - 1)) ->
  wp (topo_source tid n) x (fun _ x' => tinv x' /\ x'.2 = x.2 ++ [n] /\ forall m, x'.1 !! m <> Some (tid - 1)).
Proof.
  intros Hx Hn Hs Hnew Ht. unfold wp, topo_source.
  destruct (lookup_lt_is_Some_2 x.1 n) as [v Hv]; [by rewrite (ti_len _ Hx)|]. rewrite Hv. cbn.
  rewrite decide_False; [|intros ->; by apply Hnew, (ti_perm _ Hx)].
  assert (Hlen : n < length x.1) by (by rewrite (ti_len _ Hx)).
  split; [|split; [done|]].
  - split; cbn.
    + rewrite insert_length. apply Hx.
    + intros m. rewrite elem_of_app, elem_of_list_singleton, <- (ti_perm _ Hx m).
      destruct (decide (m = n)) as [->|Hne].
      * rewrite list_lookup_insert by done. split; [by right|done].
      * rewrite list_lookup_insert_ne by done. split; [by left|intros [?|?]; done].
    + apply NoDup_app. split; [apply Hx|]. split; [|apply NoDup_singleton].
      intros m Hm ->%elem_of_list_singleton. done.
    + intros i k c. destruct (decide (i < length x.2)) as [Hi|Hi].
      * rewrite lookup_app_l by done. intros H1 H2.
        destruct (ti_after _ Hx i k c H1 H2) as (j & Hj & Hj'). exists j. split; [done|].
        rewrite lookup_app_l by lia. done.
      * rewrite lookup_app_r by lia. intros H1 H2.
        apply list_lookup_singleton_Some in H1 as [_ <-]. by apply Hs in H2.
  - intros m. cbn. destruct (decide (m = n)) as [->|Hne].
    + rewrite list_lookup_insert by done. intros [=]; lia.
    + by rewrite list_lookup_insert_ne.
Qed.

Lemma topo_sources_spec l : forall x, tinv x -> (forall m, x.1 !! m <> Some (tid - 1)) ->
  NoDup (x.2 ++ l) -> Forall (fun n => n < N /\ forall c, ~ edge fan n c) l ->
  wp (mapM (topo_source tid) l) x (fun _ x' => tinv x' /\ x'.2 = x.2 ++ l /\ forall m, x'.1 !! m <> Some (tid - 1)).
Proof.
  induction l as [|n l IH]; intros x Hx Ht Hnd Hl; cbn [mapM].
  - apply wp_ret. by rewrite app_nil_r.
  - apply Forall_cons in Hl as [[Hn Hs] Hl].
    apply wp_bnd. eapply wp_mono; [apply topo_source_spec; try done|].
    + apply NoDup_app in Hnd as (_ & Hd & _). intros Hi. by apply (Hd n Hi), elem_of_list_here.
    + intros u1 x1 (H1 & E1 & Ht1). cbn beta. apply wp_bnd. eapply wp_mono; [apply IH; try done|].
      * rewrite E1, <- app_assoc. done.
      * intros u2 x2 (H2 & E2 & Ht2). apply wp_ret. rewrite E2, E1, <- app_assoc. done.
Qed.

Lemma topo_root_spec n x : tinv x -> n < N -> (forall m, x.1 !! m <> Some (tid - 1)) ->
  wp (topo_root fan tid N n) x (fun _ x' => tpost n x x').
Proof using All.
  intros Hx Hn Ht. unfold topo_root.
  destruct (lookup_lt_is_Some_2 x.1 n) as [v Hv]; [by rewrite (ti_len _ Hx)|].
  unfold wp. rewrite Hv. cbn [mbind option_bind]. destruct (decide (v = tid)) as [->|Hvt].
  - split; [done|]. split; [done|]. split; [lia|]. split; [by apply (ti_perm _ Hx)|].
    exists []. rewrite app_nil_r. split; [done|]. by intros m ?%elem_of_nil.
  - apply (topo_rec_spec (S N)); [done|done|by intros m ?%Ht|].
    pose proof (unm_le x.1). rewrite (ti_len _ Hx) in *. lia.
Qed.

Lemma topo_run_spec sources roots marks :
  length marks = N -> Forall (fun v => v < tid - 1) marks ->
  NoDup sources -> Forall (fun n => n < N /\ forall c, ~ edge fan n c) sources ->
  Forall (fun n => n < N) roots ->
  wp (topo_run fan tid N sources roots) (marks, []) (fun _ x =>
    topo_order fan sources roots x.2 /\ Forall (fun n => n < N) x.2).
Proof using All.
  intros Hlen Hm Hnd Hs Hr. unfold topo_run. apply wp_bnd.
  assert (Hx0 : tinv (marks, [])).
  { split; cbn; [done| |apply NoDup_nil_2|done].
    intros m. split; [|by intros ?%elem_of_nil]. intros H.
    eapply Forall_lookup_1 in Hm; [|exact H]. lia. }
  eapply wp_mono; [apply topo_sources_spec; [done| |done|done]|].
  { cbn. intros m H. eapply Forall_lookup_1 in Hm; [|exact H]. lia. }
  intros u1 x1 (H1 & E1 & Ht1). cbn beta. cbn in E1. apply wp_bnd.
  eapply wp_mono; [apply tposts_mapM; [done|]|].
  - intros n x0 Hn Hx Ht _. apply topo_root_spec; [done|by eapply Forall_forall in Hr; [|exact Hn]|].
    intros m Hm'. apply Ht in Hm'. by apply Ht1 in Hm'.
  - intros u2 x2 (H2 & Ht2 & Hu2 & Hin2 & ext & He & Hext). apply wp_ret. rewrite E1 in He. split.
    + split.
      * by exists ext.
      * apply H2.
      * intros n. rewrite He, elem_of_app. split.
        -- intros [?|Hn]; [by left|]. right. by apply Hext.
        -- intros [?|(r & Hrin & Hrn)]; [by left|]. rewrite <- elem_of_app, <- He.
           apply Hin2 in Hrin. clear Ht2 Hu2 Hin2.
           assert (forall a b, rtc (edge fan) a b -> a ∈ x2.2 -> b ∈ x2.2) as Hclo; [|by eapply Hclo].
           clear -H2. intros a b Hab. induction Hab as [|a c b Hac _ IH]; [done|]. intros Ha. apply IH.
           apply elem_of_list_lookup in Ha as [i Hi].
           destruct (ti_after _ H2 i a c Hi Hac) as (j & _ & Hj). by eapply elem_of_list_lookup_2.
      * apply H2.
    + rewrite He. apply Forall_app. split.
      * eapply Forall_impl; [exact Hs|]. by intros n [? _].
      * apply Forall_forall. intros n Hn. by apply Hext.
Qed.
End topo.

Lemma topo_view_spec fan N sources roots marks trav :
  dag fan N -> length marks = N -> Forall (fun v => v <= trav) marks ->
  NoDup sources -> Forall (fun n => n < N /\ forall c, ~ edge fan n c) sources ->
  Forall (fun n => n < N) roots ->
  exists l, topo_view fan N sources roots marks trav = Some l /\
    topo_order fan sources roots l /\ Forall (fun n => n < N) l.
Proof.
  intros [Ht Hc [rank Hr]] Hlen Hm Hnd Hs Hro. unfold topo_view.
  destruct (wp_elim _ _ _ (topo_run_spec fan N (trav + 2) rank ltac:(lia) Ht Hc Hr sources roots marks Hlen
    ltac:(eapply Forall_impl; [exact Hm|]; cbn; intros; lia) Hnd Hs Hro)) as (u & x & E & H).
  rewrite E. cbn. by exists x.2.
Qed.

(* The order does not depend on the stale visited fields. *)
Section marks.
Variables (fan : nat -> option (list nat)) (t1 t2 : nat).
Hypothesis (H1 : 2 <= t1) (H2 : 2 <= t2).

Definition msim (x y : tst) : Prop :=
  length x.1 = length y.1 /\ x.2 = y.2 /\
  forall m, (x.1 !! m = Some t1 <-> y.1 !! m = Some t2) /\ (x.1 !! m = Some (t1 - 1) <-> y.1 !! m = Some (t2 - 1)).
Definition osim (a b : option (unit * tst)) : Prop :=
  match a, b with Some (_, x), Some (_, y) => msim x y | None, None => True | _, _ => False end.
Definition osims (a b : option (list unit * tst)) : Prop :=
  match a, b with Some (_, x), Some (_, y) => msim x y | None, None => True | _, _ => False end.

Lemma msim_insert x y n a b l : msim x y -> (a = t1 <-> b = t2) -> (a = t1 - 1 <-> b = t2 - 1) ->
  msim (<[n := a]> x.1, x.2 ++ l) (<[n := b]> y.1, y.2 ++ l).
Proof.
  intros (Hl & Hx & Hm) Ha Hb. split; [cbn; by rewrite !insert_length|]. split; [cbn; by rewrite Hx|].
  intros m. cbn. destruct (decide (m = n)) as [->|Hne].
  - destruct (decide (n < length x.1)).
    + rewrite !list_lookup_insert by lia. naive_solver.
    + rewrite !list_insert_ge by lia. apply Hm.
  - rewrite !list_lookup_insert_ne by done. apply Hm.
Qed.

Lemma mapM_sim (f g : nat -> M tst unit) l : (forall n x y, msim x y -> osim (f n x) (g n y)) ->
  forall x y, msim x y -> osims (mapM f l x) (mapM g l y).
Proof.
  intros Hfg. induction l as [|n l IH]; intros x y Hxy; [done|]. cbn. unfold bnd.
  specialize (Hfg n x y Hxy). destruct (f n x) as [[u x1]|], (g n y) as [[w y1]|]; cbn in Hfg; try done.
  specialize (IH x1 y1 Hfg). destruct (mapM f l x1) as [[us x2]|], (mapM g l y1) as [[ws y2]|]; done.
Qed.

Lemma sim_lookup x y n : msim x y ->
  match x.1 !! n, y.1 !! n with
  | Some v, Some w => n < length x.1 /\ (v = t1 <-> w = t2) /\ (v = t1 - 1 <-> w = t2 - 1)
  | None, None => True | _, _ => False end.
Proof.
  intros (Hl & _ & Hm). specialize (Hm n).
  destruct (x.1 !! n) as [v|] eqn:E1, (y.1 !! n) as [w|] eqn:E2.
  - split; [by eapply lookup_lt_Some|]. naive_solver.
  - apply lookup_lt_Some in E1. apply lookup_ge_None in E2. lia.
  - apply lookup_lt_Some in E2. apply lookup_ge_None in E1. lia.
  - done.
Qed.

Lemma topo_rec_sim fuel : forall n x y, msim x y -> osim (topo_rec fan t1 fuel n x) (topo_rec fan t2 fuel n y).
Proof using H1 H2.
  induction fuel as [|fuel IH]; intros n x y Hxy; [done|]. cbn [topo_rec].
  pose proof (sim_lookup x y n Hxy) as E.
  destruct (x.1 !! n) as [v|], (y.1 !! n) as [w|]; try done. cbn. destruct E as (Hn & E1 & E2).
  destruct (decide (v = t1)), (decide (w = t2)); try (exfalso; tauto); try done.
  destruct (decide (v = t1 - 1)), (decide (w = t2 - 1)); try (exfalso; tauto); try done.
  destruct (fan n) as [cs|]; [|done]. cbn.
  assert (Hs : msim (<[n := t1 - 1]> x.1, x.2) (<[n := t2 - 1]> y.1, y.2)).
  { pose proof (msim_insert x y n (t1 - 1) (t2 - 1) [] Hxy) as Hi. rewrite !app_nil_r in Hi. apply Hi; lia. }
  pose proof (mapM_sim _ _ cs (fun n x y => IH n x y) _ _ Hs) as Hc.
  destruct (mapM (topo_rec fan t1 fuel) cs _) as [[us x2]|] eqn:Ex, (mapM (topo_rec fan t2 fuel) cs _) as [[ws y2]|] eqn:Ey;
    cbn in Hc; try done. cbn.
  apply msim_insert; [done|done|lia].
Qed.

Lemma topo_view_sim N sources roots m1 m2 : msim (m1, []) (m2, []) ->
  (x ← topo_run fan t1 N sources roots (m1, []); Some x.2.2) =
  (x ← topo_run fan t2 N sources roots (m2, []); Some x.2.2).
Proof using H1 H2.
  intros Hm. unfold topo_run, bnd.
  assert (Hs : osims (mapM (topo_source t1) sources (m1, [])) (mapM (topo_source t2) sources (m2, []))).
  { apply mapM_sim; [|done]. intros n x y Hxy. unfold topo_source. pose proof (sim_lookup x y n Hxy) as E.
    destruct (x.1 !! n) as [v|], (y.1 !! n) as [w|]; try done. cbn. destruct E as (Hn & E1 & E2).
    destruct (decide (v = t1)), (decide (w = t2)); try (exfalso; tauto); try done.
    cbn. apply msim_insert; [done|done|lia]. }
  destruct (mapM (topo_source t1) sources _) as [[us x]|], (mapM (topo_source t2) sources _) as [[ws y]|]; cbn in Hs; try done.
  assert (Hr : osims (mapM (topo_root fan t1 N) roots x) (mapM (topo_root fan t2 N) roots y)).
  { apply mapM_sim; [|done]. clear x y Hs. intros n x y Hxy. unfold topo_root. pose proof (sim_lookup x y n Hxy) as E.
    destruct (x.1 !! n) as [v|], (y.1 !! n) as [w|]; try done. cbn [mbind option_bind]. destruct E as (Hn & E1 & E2).
    destruct (decide (v = t1)), (decide (w = t2)); try (exfalso; tauto); try done.
    by apply topo_rec_sim. }
  destruct (mapM (topo_root fan t1 N) roots x) as [[us2 x2]|], (mapM (topo_root fan t2 N) roots y) as [[ws2 y2]|]; cbn in Hr; try done.
  cbn. destruct Hr as (_ & E & _). by rewrite E.
Qed.
End marks.

Lemma topo_view_marks fan N sources roots m1 t1 m2 t2 :
  length m1 = length m2 -> Forall (fun v => v <= t1) m1 -> Forall (fun v => v <= t2) m2 ->
  topo_view fan N sources roots m1 t1 = topo_view fan N sources roots m2 t2.
Proof.
  intros Hl F1 F2. unfold topo_view.
  pose proof (topo_view_sim fan (t1 + 2) (t2 + 2) ltac:(lia) ltac:(lia) N sources roots m1 m2) as E.
  assert (Hm : msim (t1 + 2) (t2 + 2) (m1, []) (m2, [])).
  { split; [done|]. split; [done|]. cbn. intros m. rewrite Forall_lookup in F1, F2.
    split; split; intros H; (apply F1 in H || apply F2 in H); lia. }
  specialize (E Hm). 
  destruct (topo_run fan (t1 + 2) N sources roots (m1, [])) as [[? [? ?]]|], (topo_run fan (t2 + 2) N sources roots (m2, [])) as [[? [? ?]]|];
    cbn in *; congruence.
Qed.
