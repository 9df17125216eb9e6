From Verif Require Import Base Tt TtProofs TtCache.

Record cinv (c : cache) : Prop := {
  ci_wf : forall i t, cdata c !! i = Some t -> tt_wf t /\ get_bit t 0 = false;
  ci_nd : NoDup (cdata c);
  ci_idx : forall t i, assoc t (cidx c) = Some i <-> cdata c !! N.to_nat i = Some t
}.

Lemma pow_pos n : 0 < 2 ^ n.
Proof. induction n; cbn; lia. Qed.

Lemma get_not t m : tt_wf t -> m < 2 ^ nv t -> get_bit (tt_not t) m = negb (get_bit t m).
Proof.
  intros Hw Hm. unfold get_bit, tt_not. cbn [tb].
  rewrite nth_indep with (d' := negb false); [by rewrite map_nth|]. by rewrite map_length, Hw.
Qed.

Lemma not_not t : tt_not (tt_not t) = t.
Proof.
  destruct t as [n b]. unfold tt_not; cbn. f_equal. rewrite map_map.
  induction b as [|x b IH]; cbn; [done|]. by rewrite negb_involutive, IH.
Qed.
Lemma not_inj s t : tt_not s = tt_not t -> s = t.
Proof. intros H. by rewrite <- (not_not s), <- (not_not t), H. Qed.

Definition norm (t : tt) : tt := if get_bit t 0 then tt_not t else t.

Lemma norm_wf t : tt_wf t -> tt_wf (norm t) /\ get_bit (norm t) 0 = false.
Proof.
  intros Hw. unfold norm. destruct (get_bit t 0) eqn:E; [|done].
  split; [by apply not_wf|]. rewrite get_not by (done || apply pow_pos). by rewrite E.
Qed.

Lemma norm_eq s t : tt_wf s -> tt_wf t -> norm s = norm t <-> s = t \/ s = tt_not t.
Proof.
  intros Hs Ht. unfold norm. split.
  - destruct (get_bit s 0), (get_bit t 0); intros H; auto.
    + left. by apply not_inj.
    + right. by rewrite <- H, not_not.
  - intros [->| ->]; [done|]. rewrite get_not by (done || apply pow_pos).
    destruct (get_bit t 0); cbn; [done|]. by rewrite not_not.
Qed.

Lemma norm_bit s t : tt_wf s -> tt_wf t -> norm s = norm t -> get_bit s 0 = get_bit t 0 -> s = t.
Proof.
  unfold norm. intros Hs Ht H E. rewrite E in H. destruct (get_bit t 0); [by apply not_inj|done].
Qed.

Lemma cinv_empty : cinv cache_empty.
Proof. split; cbn; [done|constructor|]. intros t i. split; [done|]. by rewrite lookup_nil. Qed.

Lemma insert_spec c t l c' : cinv c -> tt_wf t -> cache_insert t c = (l, c') ->
  (N.of_nat (length (cdata c')) <= 2 ^ 31)%N ->
  cinv c' /\ (exists r, cdata c' = cdata c ++ r) /\
  cdata c' !! N.to_nat (l / 2) = Some (norm t) /\ N.odd l = get_bit t 0.
Proof.
  intros [Hwf Hnd Hidx] Hw Hi Hb. unfold cache_insert in Hi. fold (norm t) in Hi.
  pose proof (norm_wf t Hw) as Hn.
  assert (Hlit : forall i b, (i < 2 ^ 31)%N ->
     ((2 * i + N.b2n b) mod 2 ^ 32 / 2 = i)%N /\ N.odd ((2 * i + N.b2n b) mod 2 ^ 32) = b).
  { intros i b Hi'. rewrite N.mod_small by (destruct b; cbn [N.b2n]; lia). split.
    - rewrite N.mul_comm, N.div_add_l by lia. rewrite N.div_small by (destruct b; cbn; lia). lia.
    - rewrite N.add_comm, N.odd_add_mul_2. by destruct b. }
  destruct (assoc (norm t) (cidx c)) as [i|] eqn:E.
  - apply pair_equal_spec in Hi as [<- <-]. apply Hidx in E as E'.
    assert (Hlt : (i < 2 ^ 31)%N).
    { apply lookup_lt_Some in E'. lia. }
    destruct (Hlit i (get_bit t 0) Hlt) as [-> ->].
    split; [by split|]. split; [exists []; by rewrite app_nil_r|]. done.
  - apply pair_equal_spec in Hi as [<- <-]. cbn [cdata] in *. rewrite app_length in Hb; cbn in Hb.
    assert (Hlt : (N.of_nat (length (cdata c)) < 2 ^ 31)%N) by lia.
    destruct (Hlit _ (get_bit t 0) Hlt) as [-> ->]. rewrite Nat2N.id.
    assert (Hnin : norm t ∉ cdata c).
    { intros [j Hj]%elem_of_list_lookup. specialize (Hidx (norm t) (N.of_nat j)).
      rewrite Nat2N.id in Hidx. apply Hidx in Hj. congruence. }
    split; [split; cbn [cdata cidx]|].
    + intros i u Hu. apply lookup_app_Some in Hu as [Hu|[_ Hu]]; [by eapply Hwf|].
      apply list_lookup_singleton_Some in Hu as [_ <-]. done.
    + apply NoDup_app. split; [done|]. split; [|apply NoDup_singleton].
      intros x Hx ->%elem_of_list_singleton. done.
    + intros u i. cbn [assoc]. rewrite N.mod_small by lia. case_decide as Hu.
      * subst u. split.
        -- intros [= <-]. rewrite Nat2N.id. rewrite lookup_app_r by lia. by rewrite Nat.sub_diag.
        -- intros Hi. f_equal. apply lookup_app_Some in Hi as [Hi|[Hge Hi]].
           ++ destruct Hnin. by eapply elem_of_list_lookup_2.
           ++ apply list_lookup_singleton_Some in Hi as [Hz _]. lia.
      * rewrite Hidx. split; intros Hi.
        -- by apply lookup_app_l_Some.
        -- apply lookup_app_Some in Hi as [Hi|[Hge Hi]]; [done|].
           apply list_lookup_singleton_Some in Hi as [_ <-]. done.
    + split; [by eexists|]. split; [|done]. rewrite lookup_app_r by lia. by rewrite Nat.sub_diag.
Qed.

Lemma cache_insert_length c t l c' : cache_insert t c = (l, c') -> length (cdata c) <= length (cdata c').
Proof.
  unfold cache_insert. destruct (assoc _ _); intros [= <- <-]; cbn; [lia|]. rewrite app_length. lia.
Qed.

Lemma hist_cinv h c : cache_hist h c -> (N.of_nat (length (cdata c)) <= 2 ^ 31)%N ->
  cinv c /\ forall t l, (t, l) ∈ h -> tt_wf t /\ cdata c !! N.to_nat (l / 2) = Some (norm t) /\ N.odd l = get_bit t 0.
Proof.
  induction 1 as [|h c t l c' Hh IH Hw Hi]; intros Hb.
  - split; [apply cinv_empty|]. intros ? ? []%elem_of_nil.
  - pose proof (cache_insert_length _ _ _ _ Hi) as Hl.
    destruct (IH ltac:(lia)) as [Hc Hall].
    destruct (insert_spec c t l c' Hc Hw Hi Hb) as (Hc' & [r Hr] & Hd & Ho).
    split; [done|]. intros u m [Hin|Hin]%elem_of_app.
    + destruct (Hall u m Hin) as (? & Hl' & ?). split; [done|]. split; [|done].
      rewrite Hr. by apply lookup_app_l_Some.
    + apply elem_of_list_singleton in Hin as [= -> ->]. done.
Qed.

Lemma cache_reads_back h c t l : cache_hist h c -> (N.of_nat (length (cdata c)) <= 2 ^ 31)%N ->
  (t, l) ∈ h -> cache_get l c = Some t /\ cache_get (N.lxor l 1) c = Some (tt_not t).
Proof.
  intros Hh Hb Hin. destruct (hist_cinv h c Hh Hb) as [Hc Hall].
  destruct (Hall t l Hin) as (Hw & Hd & Ho). unfold cache_get.
  assert (Hx : (N.lxor l 1 / 2 = l / 2)%N /\ N.odd (N.lxor l 1) = negb (N.odd l)).
  { split.
    - rewrite <- !N.div2_div. destruct l as [|[p|p|]]; done.
    - destruct l as [|[p|p|]]; done. }
  destruct Hx as [-> ->]. rewrite Hd. cbn. rewrite Ho. unfold norm.
  destruct (get_bit t 0); cbn; rewrite ?not_not; done.
Qed.

Lemma cache_canonical h c s t k l : cache_hist h c -> (N.of_nat (length (cdata c)) <= 2 ^ 31)%N ->
  (s, k) ∈ h -> (t, l) ∈ h ->
  ((k / 2 = l / 2)%N <-> s = t \/ s = tt_not t) /\ (k = l <-> s = t).
Proof.
  intros Hh Hb Hs Ht. destruct (hist_cinv h c Hh Hb) as [Hc Hall].
  destruct (Hall s k Hs) as (Hws & Hds & Hos). destruct (Hall t l Ht) as (Hwt & Hdt & Hot).
  assert (Hidx : (k / 2 = l / 2)%N <-> norm s = norm t).
  { split.
    - intros E. rewrite E in Hds. congruence.
    - intros E. rewrite E in Hds. pose proof (NoDup_lookup _ _ _ _ (ci_nd c Hc) Hds Hdt). lia. }
  split.
  - rewrite Hidx. by apply norm_eq.
  - split.
    + intros ->. apply norm_bit; try done; [by apply Hidx|congruence].
    + intros ->. assert (E : (k / 2 = l / 2)%N) by (by apply Hidx).
      rewrite (N.div_mod k 2), (N.div_mod l 2), E by lia.
      f_equal. rewrite <- !N.bit0_mod, !N.bit0_odd, Hos, Hot. done.
Qed.

Lemma cache_bounded h c : cache_hist h c -> length (cdata c) <= length h.
Proof.
  induction 1 as [|h c t l c' Hh IH Hw Hi]; [done|]. rewrite app_length. cbn.
  unfold cache_insert in Hi. destruct (assoc _ _); injection Hi as <- <-; cbn; [lia|].
  rewrite app_length. cbn. lia.
Qed.
