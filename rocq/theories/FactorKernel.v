(* Kernels of sums of products without containment. *)
From Verif Require Import Base Aig AigSem AigProofs AigApi AigReach Tt Isop Factor FactorProofs.

Definition anti (f : sop) : Prop := NoDup f /\ forall c d, c ∈ f -> d ∈ f -> sub c d -> c = d.
Notation quo f C := (sop_divide_by_cube f C).1.
Notation rest f C := (sop_divide_by_cube f C).2.

Lemma elem_of_sublist {A} (x : A) l k : x ∈ l -> l `sublist_of` k -> x ∈ k.
Proof. intros Hx Hs. by eapply elem_of_submseteq, sublist_submseteq. Qed.
Lemma sublist_NoDup {A} (l k : list A) : l `sublist_of` k -> NoDup k -> NoDup l.
Proof.
  induction 1 as [|x l k Hs IH|x l k Hs IH]; intros Hn; [constructor| |].
  - apply NoDup_cons in Hn as [Hx Hn]. constructor; [|auto]. intros H. apply Hx. by eapply elem_of_sublist.
  - apply NoDup_cons in Hn as [_ Hn]. auto.
Qed.
Lemma sublist_filter {A} (P : A -> Prop) `{forall x, Decision (P x)} (l : list A) : filter P l `sublist_of` l.
Proof. induction l as [|x l IH]; [done|]. rewrite filter_cons. case_decide; by constructor. Qed.
Lemma no_containment_anti f : no_containment f <-> anti f.
Proof.
  split.
  - intros H. split.
    + apply NoDup_alt. intros i j c Hi Hj. eapply H; [done|done|apply N.land_diag].
    + intros c d Hc Hd Hs. apply elem_of_list_lookup in Hc as [i Hi]. apply elem_of_list_lookup in Hd as [j Hj].
      assert (i = j) by (eapply H; [done|done|]; rewrite N.land_comm; by apply sub_land). congruence.
  - intros [Hn Ha] i j c d Hi Hj E. rewrite N.land_comm, sub_land in E.
    assert (c = d) as -> by (apply Ha; [by eapply elem_of_list_lookup_2|by eapply elem_of_list_lookup_2|done]).
    by eapply NoDup_lookup.
Qed.
Lemma anti_sublist f g : g `sublist_of` f -> anti f -> anti g.
Proof.
  intros Hs [Hn Ha]. split; [by eapply sublist_NoDup|]. intros c d Hc Hd. apply Ha; by eapply elem_of_sublist.
Qed.
Lemma anti_nz f c : anti f -> 2 <= length f -> c ∈ f -> c <> 0%N.
Proof.
  intros [Hn Ha] Hl Hc ->. destruct f as [|a [|b f]]; cbn in Hl; [lia|lia|].
  assert (0%N = a) by (apply Ha; [done|left|apply sub_0]). assert (0%N = b) by (apply Ha; [done|right; left|apply sub_0]).
  subst a b. apply NoDup_cons in Hn as [Hn _]. apply Hn. left.
Qed.

(* ---------- division by one product ---------- *)
Lemma quo_elem f C q : q ∈ quo f C <-> N.land q C = 0%N /\ N.lor q C ∈ f.
Proof.
  cbn. rewrite elem_of_list_In, in_map_iff. setoid_rewrite <- elem_of_list_In. setoid_rewrite elem_of_list_filter. setoid_rewrite sub_land. split.
  - intros (c & <- & Hs & Hc). split; [apply ldiff_apart|by rewrite lor_ldiff].
  - intros [Hq Hc]. exists (N.lor q C). split; [by apply ldiff_lor|]. split; [apply sub_lor_r|done].
Qed.
Lemma rest_sublist f C : rest f C `sublist_of` f.
Proof. cbn. apply sublist_filter. Qed.
Lemma quo_length f C : length (quo f C) = length (filter (fun c => N.land c C = C) f).
Proof. cbn. apply map_length. Qed.
Lemma quo_lits f C : lits f = length (quo f C) * pop C + lits (quo f C) + lits (rest f C).
Proof.
  cbn [sop_divide_by_cube fst snd]. induction f as [|c f IH]; [done|].
  rewrite !filter_cons. destruct (decide (N.land c C = C)) as [E|E].
  - rewrite decide_False by (intros H; by apply H). cbn [map length]. rewrite !lits_cons, IH.
    rewrite <- (lor_ldiff c C) at 1 by (by apply sub_land). rewrite pop_lor by apply ldiff_apart. lia.
  - rewrite decide_True by done. rewrite !lits_cons, IH. lia.
Qed.
Lemma quo_anti f C : anti f -> anti (quo f C).
Proof.
  intros [Hn Ha]. split.
  - cbn. clear Ha. induction Hn as [|c f Hc Hn IH]; [constructor|]. rewrite filter_cons. case_decide as E; [|done].
    cbn [map]. constructor; [|done]. rewrite elem_of_list_In, in_map_iff. intros (x & Ex & Hx). apply elem_of_list_In, elem_of_list_filter in Hx as [Hs Hx].
    apply Hc. rewrite <- (lor_ldiff c C), <- Ex, lor_ldiff by (by apply sub_land). done.
  - intros c d Hc Hd Hs. apply quo_elem in Hc as [Hc1 Hc2]. apply quo_elem in Hd as [Hd1 Hd2].
    assert (E : N.lor c C = N.lor d C).
    { apply Ha; [done|done|]. apply sub_lor. split; [|apply sub_lor_r]. eapply sub_trans; [done|apply sub_lor_l]. }
    rewrite !(N.lor_comm _ C) in E. apply lor_cancel in E; [done|by rewrite N.land_comm|by rewrite N.land_comm].
Qed.
Lemma quo_0 f : quo f 0 = f.
Proof.
  cbn. induction f as [|c f IH]; [done|]. rewrite filter_cons_True by apply N.land_0_r. cbn [map]. by rewrite IH, N.ldiff_0_r.
Qed.
Lemma quo_quo f C c : N.land C c = 0%N -> quo (quo f C) c = quo f (N.lor C c).
Proof.
  intros Hd. cbn. induction f as [|x f IH]; [done|]. rewrite !filter_cons.
  destruct (decide (N.land x C = C)) as [E|E].
  - cbn [map]. rewrite filter_cons. rewrite sub_land in E. destruct (decide (N.land (N.ldiff x C) c = c)) as [E'|E'].
    + rewrite sub_land in E'. rewrite decide_True.
      * cbn [map]. by rewrite IH, N.ldiff_ldiff_l.
      * apply sub_land, sub_lor. split; [done|]. eapply sub_trans; [done|apply ldiff_sub].
    + rewrite decide_False; [done|]. intros H. apply sub_land, sub_lor in H as [_ H]. apply E', sub_land.
      intros n Hn. rewrite N.ldiff_spec, (H n Hn). rewrite land0 in Hd. specialize (Hd n). destruct (N.testbit C n); [by destruct Hd|done].
  - rewrite decide_False; [done|]. intros H. apply E. apply sub_land. apply sub_land, sub_lor in H. tauto.
Qed.
Lemma quo_full f C : anti f -> full (quo f C) f C.
Proof.
  intros [_ Ha]. split; [|split].
  - intros d Hd. apply quo_elem in Hd as [H _]. by rewrite N.land_comm.
  - intros d d' Hd Hd' Hs. apply quo_elem in Hd as [H1 H2]. apply quo_elem in Hd' as [H1' H2'].
    assert (E : N.lor d' C = N.lor d C).
    { apply Ha; [done|done|]. apply sub_lor. split; [|apply sub_lor_r]. by rewrite N.lor_comm. }
    rewrite !(N.lor_comm _ C) in E. apply lor_cancel in E; [done|by rewrite N.land_comm|by rewrite N.land_comm].
  - intros d Hd. apply quo_elem in Hd as [_ H]. by rewrite N.lor_comm.
Qed.

(* ---------- words of an antichain ---------- *)
Lemma unmarked_sub f g : unmarked f -> (forall q, q ∈ g -> exists c, c ∈ f /\ sub q c) -> unmarked g.
Proof.
  intros Hu H. apply Forall_forall. intros q Hq. destruct (H q Hq) as (c & Hc & Hs). eapply sub_below; [done|].
  by eapply (proj1 (Forall_forall _ _) Hu).
Qed.
Lemma quo_unmarked f C : unmarked f -> unmarked (quo f C).
Proof. intros Hu. eapply unmarked_sub; [done|]. intros q Hq. apply quo_elem in Hq as [_ Hq]. eauto using sub_lor_l. Qed.
Lemma rest_unmarked f C : unmarked f -> unmarked (rest f C).
Proof. intros Hu. eapply unmarked_sub; [done|]. intros q Hq. exists q. split; [eapply elem_of_sublist; [done|apply rest_sublist]|apply sub_refl]. Qed.

Lemma common_fold f m n : N.testbit (fold_left N.land f m) n = N.testbit m n && forallb (fun c => N.testbit c n) f.
Proof.
  revert m. induction f as [|c f IH]; intros m; [by rewrite andb_true_r|]. cbn. rewrite IH, N.land_spec. by rewrite andb_assoc.
Qed.
Lemma ones_bit n : N.testbit all_ones n = true <-> (n < 64)%N.
Proof.
  change all_ones with (N.ones 64). destruct (decide (n < 64)%N) as [H|H].
  - by rewrite N.ones_spec_low. - rewrite N.ones_spec_high by lia. split; [done|lia].
Qed.
Lemma common_bit f n : N.testbit (common f) n = true <-> (n < 64)%N /\ forall c, c ∈ f -> N.testbit c n = true.
Proof.
  unfold common. rewrite common_fold, andb_true_iff, ones_bit, forallb_forall. by setoid_rewrite <- elem_of_list_In.
Qed.
Lemma common_sub f c : c ∈ f -> sub (common f) c.
Proof. intros Hc n Hn. apply common_bit in Hn as [_ Hn]. auto. Qed.

Lemma occurs_quo f C l : 1 < occurs f l -> (forall c, c ∈ f -> has_lit c l = true -> sub C c) -> 2 <= length (quo f C).
Proof.
  intros Ho H. rewrite quo_length. unfold occurs in Ho. etrans; [exact Ho|]. clear Ho.
  induction f as [|c f IH]; [done|]. rewrite !filter_cons.
  assert (IH' : length (filter (fun c => has_lit c l = true) f) <= length (filter (fun c => N.land c C = C) f)).
  { apply IH. intros c' Hc'. apply H. by right. }
  destruct (decide (has_lit c l = true)) as [E|E].
  - rewrite decide_True by (apply sub_land, H; [left|done]). cbn. lia.
  - case_decide; cbn; lia.
Qed.
Lemma most_lit f l c : unmarked f -> get_most_lit f l = Some c ->
  1 < occurs f l /\ has_lit c l = true /\ 2 <= length (quo f c) /\ (c < 2 ^ 63)%N /\
  (forall m, has_lit c m = true -> 1 < occurs f m) /\ (forall C, (forall d, d ∈ f -> N.land C d = 0%N) -> N.land C c = 0%N).
Proof.
  intros Hu H. unfold get_most_lit in H. case_decide as Ho; [|done]. injection H as <-. split; [done|].
  set (g := filter (fun c => has_lit c l = true) f).
  assert (Hg : forall c, c ∈ g <-> c ∈ f /\ has_lit c l = true) by (intros c; unfold g; rewrite elem_of_list_filter; tauto).
  assert (exists c0, c0 ∈ g) as [c0 Hc0].
  { unfold occurs in Ho. fold g in Ho. destruct g as [|c0 g']; [cbn in Ho; lia|]. exists c0. left. }
  assert (Hl : l < 63). { apply Hg in Hc0 as [Hc0 Hl]. pose proof (proj1 (Forall_forall _ _) Hu _ Hc0) as Hb. apply (proj1 (below_bits _ _) Hb) in Hl. lia. }
  split; [|split; [|split; [|split]]].
  - unfold has_lit. apply common_bit. split; [lia|]. intros c Hc. by apply Hg in Hc as [_ ?].
  - eapply occurs_quo; [done|]. intros c Hc Hlc. apply common_sub. by apply Hg.
  - apply Hg in Hc0 as Hc0'. apply (sub_below _ _ c0); [by apply common_sub|]. exact (proj1 (Forall_forall _ _) Hu c0 (proj1 Hc0')).
  - intros m Hm. unfold occurs in *. eapply Nat.lt_le_trans; [exact Ho|].
    assert (Himp : forall c, c ∈ f -> has_lit c l = true -> has_lit c m = true).
    { intros c Hc Hcl. apply common_sub with (c := c) in Hm; [done|by apply Hg]. }
    clear -Himp. induction f as [|c f IH]; [done|]. rewrite !filter_cons.
    assert (IH' : length (filter (fun c => has_lit c l = true) f) <= length (filter (fun c => has_lit c m = true) f)).
    { apply IH. intros c' Hc'. apply Himp. by right. }
    destruct (decide (has_lit c l = true)) as [E|E].
    + rewrite decide_True by (apply Himp; [left|done]). cbn. lia.
    + case_decide; cbn; lia.
  - intros C HC. apply land0. intros n Hn Hn'. apply Hg in Hc0 as Hc0'. specialize (HC c0 (proj1 Hc0')). rewrite land0 in HC.
    eapply HC; [done|]. by eapply common_sub.
Qed.

Lemma head_filter_min (P : nat -> Prop) `{forall x, Decision (P x)} k n l : head (filter P (seq k n)) = Some l ->
  P l /\ k <= l < k + n /\ forall m, k <= m < l -> ~ P m.
Proof.
  revert k. induction n as [|n IH]; intros k; [done|]. cbn [seq]. rewrite filter_cons. case_decide as Ek.
  - intros [= ->]. split; [done|]. split; [lia|]. intros m Hm. lia.
  - intros Hh. apply IH in Hh as (? & ? & Hm). split; [done|]. split; [lia|]. intros m Hml. destruct (decide (m = k)) as [->|]; [done|]. apply Hm. lia.
Qed.

(* ---------- the search for the best kernel ---------- *)
Section best.
  Context (F : sop) (Hu : unmarked F) (HA : anti F) (nl : nat).

  Definition okbest (B : sop) : Prop := B = [] \/ exists C, C <> 0%N /\ B = quo F C /\ 2 <= length B.

  Lemma division_cost C Q R : 2 <= length (quo F C) -> division F (quo F C) Q R ->
    C ∈ Q /\ unmarked Q /\ unmarked R /\ lits Q + lits R <= pop C + lits (rest F C).
  Proof.
    intros Hl Hd. set (K := quo F C) in *. assert (HK : K <> []) by (intros E; rewrite E in Hl; cbn in Hl; lia).
    assert (HC : C ∈ Q) by (eapply division_full; [done|done|by apply quo_full]). split; [done|].
    assert (exists k, k ∈ K) as [k Hk] by (destruct K as [|k K']; [done|]; exists k; left).
    split. { eapply unmarked_sub; [done|]. intros q Hq. exists (N.lor q k). split; [by eapply division_in|apply sub_lor_l]. }
    split. { eapply unmarked_sub; [done|]. intros q Hq. exists q. split; [eapply elem_of_sublist; [done|by eapply division_rem]|apply sub_refl]. }
    assert (HKn : NoDup K) by (by apply quo_anti).
    pose proof (lits_perm _ _ (division_perm _ _ _ _ Hd HKn)) as E. rewrite lits_app, lits_product in E by (by eapply division_apart).
    pose proof (quo_lits F C) as E'. fold K in E'.
    apply elem_of_Permutation in HC as [Q2 HQ]. rewrite (lits_perm _ _ HQ), lits_cons in E |- *.
    rewrite (Permutation_length HQ) in E. cbn [length] in E. rewrite E in E'. clear E. nia.
  Qed.

  Definition kpost (C : N) (K : sop) (st : kstate) (r : option (nat * kstate)) : Prop :=
    exists fact st', r = Some (fact, st') /\ k_sop st' = F /\ fact <= lits K /\ k_best st' <> [] /\ okbest (k_best st') /\
      (k_best st <> [] -> k_cost st' <= k_cost st) /\ k_cost st' <= pop C + lits (rest F C) + fact.

  Definition rinv (fact : nat) (st : kstate) : Prop :=
    (k_best st = [] /\ fact = lits F) \/ (k_best st <> [] /\ k_cost st <= fact).

  Lemma kernel_loop_spec rec C j is fact st :
    (forall K' C' i st', j <= i -> i < nl -> k_sop st' = F -> K' = quo F C' -> 2 <= length K' -> C' <> 0%N -> okbest (k_best st') ->
       kpost C' K' st' (rec K' (S i) st')) ->
    (forall i, i ∈ is -> j <= i < nl) -> k_sop st = F -> okbest (k_best st) ->
    exists fact' st', kernel_loop rec (quo F C) is fact st = Some (fact', st') /\ k_sop st' = F /\ fact' <= fact /\
      okbest (k_best st') /\ (k_best st <> [] -> k_best st' <> [] /\ k_cost st' <= k_cost st) /\
      (C = 0%N -> rinv fact st -> rinv fact' st') /\
      (forall i c, i ∈ is -> get_most_lit (quo F C) i = Some c -> N.land c (2 ^ N.of_nat i - 1) = 0%N -> k_best st' <> []).
  Proof.
    intros Hrec. revert fact st. induction is as [|i is IH]; intros fact st His Hs Hb.
    { exists fact, st. do 4 (split; [done|]). split; [by auto|]. split; [by auto|]. intros i c Hi. by apply elem_of_nil in Hi. }
    cbn [kernel_loop]. assert (His' : forall i, i ∈ is -> j <= i < nl) by (intros i' ?; apply His; by right).
    assert (Hij : j <= i < nl) by (apply His; left).
    destruct (get_most_lit (quo F C) i) as [c|] eqn:Em.
    2:{ destruct (IH fact st His' Hs Hb) as (fact' & st' & E & H1 & H2 & H3 & H4 & H5 & H6).
        exists fact', st'. repeat (split; [done|]). intros i' c' Hi' Hm Hl. apply elem_of_cons in Hi' as [->|Hi']; [congruence|eauto]. }
    destruct (decide (N.land c (2 ^ N.of_nat i - 1) = 0%N)) as [El|El].
    2:{ destruct (IH fact st His' Hs Hb) as (fact' & st' & E & H1 & H2 & H3 & H4 & H5 & H6).
        exists fact', st'. repeat (split; [done|]). intros i' c' Hi' Hm Hl. apply elem_of_cons in Hi' as [->|Hi']; [congruence|eauto]. }
    destruct (most_lit _ _ _ (quo_unmarked F C Hu) Em) as (Ho & Hc & Hl2 & Hcs & _ & Hcd).
    assert (HCc : N.land C c = 0%N). { apply Hcd. intros d Hd. apply quo_elem in Hd as [? _]. by rewrite N.land_comm. }
    destruct (sop_divide_by_cube (quo F C) c) as [nk rem] eqn:Ed.
    assert (Enk : nk = quo (quo F C) c) by (by rewrite Ed). assert (Erem : rem = rest (quo F C) c) by (by rewrite Ed).
    cbn [fst] in Hl2. rewrite quo_quo in Enk by done.
    assert (Hcn : N.lor C c <> 0%N). { intros E. apply N.lor_eq_0_iff in E as [_ ->]. unfold has_lit in Hc. by rewrite N.bits_0 in Hc. }
    destruct (Hrec nk (N.lor C c) i st) as (fc & st1 & E1 & K1 & K2 & K3 & K4 & K5 & K6); [lia|lia|done|done|done|done|done|].
    assert (Hrc : cube_count_lit c + sop_count_lit rem = pop c + lits rem).
    { rewrite count_lit_pop, count_lits; [done| |].
      - apply unmarked_small. rewrite Erem. apply rest_unmarked, quo_unmarked, Hu.
      - etrans; [done|]. by apply N.pow_lt_mono_r. }
    cbv zeta. rewrite E1, Hrc. cbn [mbind option_bind].
    set (fact1 := if decide (fc + _ < fact) then _ else _).
    destruct (IH fact1 st1 His' K1 K4) as (fact' & st' & E & H1 & H2 & H3 & H4 & H5 & H6).
    exists fact', st'. split; [done|]. split; [done|].
    assert (Hf1 : fact1 <= fact /\ (fact1 = fact \/ fact1 = fc + (pop c + lits rem))).
    { unfold fact1. case_decide; lia. }
    split; [lia|]. split; [done|]. split; [|split].
    - intros Hne. destruct (H4 K3) as [? ?]. specialize (K5 Hne). split; [done|lia].
    - intros -> Hr. apply H5; [done|]. right. split; [done|]. rewrite quo_0 in Erem. rewrite N.lor_0_l in K6, Enk.
      rewrite <- Erem in K6. pose proof (quo_lits F c) as Eq. rewrite <- Erem, <- Enk in Eq.
      destruct Hr as [[Hb0 ->]|[Hb0 Hc0]].
      + assert (pop c <= length nk * pop c) by nia. destruct Hf1 as [_ [-> | ->]]; lia.
      + specialize (K5 Hb0). destruct Hf1 as [_ [-> | ->]]; lia.
    - intros i' c' Hi' _ _. by apply H4.
  Qed.

  Lemma best_kernel_spec fuel K C j st : nl - j < fuel -> k_sop st = F -> K = quo F C -> 2 <= length K -> C <> 0%N ->
    okbest (k_best st) -> kpost C K st (best_kernel_rec nl fuel K j st).
  Proof.
    revert K C j st. induction fuel as [|fuel IH]; intros K C j st Hfu Hs -> Hl HC Hb; [lia|]. cbn [best_kernel_rec].
    rewrite Hs. destruct (sop_divide_spec F (quo F C) Hu) as (Q & R & E & Hd). rewrite E. cbn [mbind option_bind].
    destruct (division_cost C Q R Hl Hd) as (HCQ & HuQ & HuR & Hcost).
    rewrite (count_lits Q), (count_lits R), (count_lits (quo F C)) by (apply unmarked_small; try done; by apply quo_unmarked).
    destruct (kernel_loop_spec (best_kernel_rec nl fuel) C j (seq j (nl - j)) (lits (quo F C)) (Ks F (k_best st) (k_cost st)))
      as (fact & st1 & E1 & H1 & H2 & H3 & H4 & _ & _).
    - intros K' C' i st' Hi Hi' Hs' HK' Hl' HC' Hb'. apply IH; try done. lia.
    - intros i Hi. apply elem_of_seq in Hi. lia.
    - done. - done.
    - cbn [k_best k_cost] in H4. cbn [fst]. rewrite E1. cbn [mbind option_bind]. case_decide as Ec.
      + eexists _, _. split; [done|]. cbn [k_sop k_best k_cost]. split; [done|]. split; [done|].
        split. { intros E0. rewrite E0 in Hl. cbn in Hl. lia. }
        split; [right; by exists C|]. split; [|lia]. intros Hne. specialize (H4 Hne) as [Hne' ?]. destruct Ec as [?|?]; [done|lia].
      + eexists _, _. split; [done|]. split; [done|]. split; [done|]. split; [intros ?; apply Ec; by left|]. split; [done|].
        split; [intros Hne; by apply H4|]. assert (~ lits Q + lits R + fact < k_cost st1) by (intros ?; apply Ec; by right). lia.
  Qed.

  Lemma good_divisor_spec : nl <= 63 -> (forall c l, c ∈ F -> has_lit c l = true -> l < nl) ->
    (sop_good_divisor F nl = Some None /\ (length F <= 1 \/ forall l, occurs F l <= 1)) \/
    (exists C, C <> 0%N /\ 2 <= length (quo F C) /\ sop_good_divisor F nl = Some (Some (quo F C, F))).
  Proof.
    intros Hnl Hlit. unfold sop_good_divisor. case_decide as Hlen; [left; auto|].
    destruct (sop_lit_occur F nl) as [l|] eqn:El.
    2:{ left. split; [done|]. right. intros l. destruct (decide (occurs F l <= 1)); [done|]. exfalso.
        unfold sop_lit_occur in El. assert (Hl : l ∈ filter (fun l => 1 < occurs F l) (seq 0 nl)).
        { apply elem_of_list_filter. split; [lia|]. apply elem_of_seq. split; [lia|]. cbn.
          unfold occurs in *. destruct (filter (fun c => has_lit c l = true) F) as [|c g] eqn:Eg; [cbn in *; lia|].
          assert (Hc : c ∈ c :: g) by left. rewrite <- Eg in Hc. apply elem_of_list_filter in Hc as [? ?]. eauto. }
        destruct (filter _ _); [by apply elem_of_nil in Hl|done]. }
    right.
    cut (exists fact st, best_kernel_rec nl (S nl) (quo F 0) 0 (Ks F [] 0) = Some (fact, st) /\ k_sop st = F /\
           exists C, C <> 0%N /\ k_best st = quo F C /\ 2 <= length (k_best st)).
    { intros (fact & st & E & Hs & C & HC & HB & Hl). exists C. split; [done|]. rewrite <- HB. split; [done|].
      rewrite quo_0 in E. rewrite E. cbn [mbind option_bind]. by rewrite Hs. }
    destruct (sop_divide_spec F (quo F 0) Hu) as (Q & R & E & Hd).
    cbn [best_kernel_rec k_sop k_best k_cost]. rewrite E. cbn [mbind option_bind].
    destruct (kernel_loop_spec (best_kernel_rec nl nl) 0 0 (seq 0 (nl - 0)) (lits F) (Ks F [] 0))
      as (fact & st1 & E1 & H1 & H2 & H3 & _ & H5 & H6).
    - intros K' C' i st' Hi Hi' Hs' HK' Hl' HC' Hb'. apply best_kernel_spec; try done. lia.
    - intros i Hi. apply elem_of_seq in Hi. lia.
    - done. - by left.
    - rewrite (count_lits (quo F 0)) by (apply unmarked_small, quo_unmarked, Hu). rewrite quo_0 in *. rewrite E1. cbn [mbind option_bind].
      assert (Hne : k_best st1 <> []).
      { unfold sop_lit_occur in El.
        assert (Hmin : 1 < occurs F l /\ l < nl /\ forall m, m < l -> occurs F m <= 1).
        { destruct (head_filter_min (fun l => 1 < occurs F l) 0 nl l El) as (? & ? & Hm). split; [done|]. split; [lia|].
          intros m Hlt. specialize (Hm m). lia. }
        destruct Hmin as (Hol & Hln & Hmin). destruct (get_most_lit F l) as [c|] eqn:Em.
        2:{ unfold get_most_lit in Em. by rewrite decide_True in Em. }
        apply (H6 l c); [apply elem_of_seq; lia|done|].
        destruct (most_lit F l c Hu Em) as (_ & _ & _ & _ & Hocc & _). apply land0. intros n Hn Hn'.
        replace (2 ^ N.of_nat l - 1)%N with (N.ones (N.of_nat l)) in Hn' by (rewrite N.ones_equiv; lia).
        assert (n < N.of_nat l)%N as Hlt.
        { destruct (decide (n < N.of_nat l)%N); [done|]. rewrite N.ones_spec_high in Hn' by lia. done. }
        specialize (Hocc (N.to_nat n)). unfold has_lit in Hocc. rewrite N2Nat.id in Hocc. specialize (Hocc Hn).
        specialize (Hmin (N.to_nat n)). lia. }
      assert (Hr : rinv fact st1) by (apply H5; [done|by left]). destruct Hr as [[? _]|[_ Hr]]; [done|].
      rewrite decide_False by (intros [?|?]; [done|lia]). cbn [k_best].
      destruct H3 as [?|(C & HC & HB & Hl)]; [done|]. eexists _, _. split; [done|]. split; [done|]. by exists C.
  Qed.
End best.
