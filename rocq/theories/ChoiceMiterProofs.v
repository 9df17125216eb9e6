(* Proofs about the miter of several networks. *)
From Verif Require Import Base Aig AigSem AigHash AigProofs AigApi AigReach NetProofs ChoiceMiter.

(* create_and on operands that do not simplify *)
Lemma create_and_gate s a b : reachable s -> valid s a -> valid s b ->
  sidx a <> sidx b -> sidx a <> 0 -> sidx b <> 0 ->
  wp (create_and a b) s (fun f s' => reachable s' /\ ext s s' /\ exists m, f = Sig m false /\ ks s' !! m = Some (order a b)).
Proof.
  intros Hr Ha Hb Hab Ha0 Hb0.
  pose proof (create_and_r s a b Hr Ha Hb) as H. apply wp_elim in H as (f & s' & E & Hr' & He & Hv & _).
  unfold wp. rewrite E. split; [done|]. split; [done|].
  pose proof (reachable_wf _ Hr) as Hw. unfold create_and in E.
  assert (Hord : valid s (order a b).2 /\ 0 < sidx (order a b).1 < sidx (order a b).2).
  { destruct (order_cases a b) as [[-> ?]|[-> ?]]; cbn; split; done || lia. }
  destruct (order a b) as [x y]. cbn in Hord. destruct Hord as [Hy Hlt].
  rewrite !decide_False in E by lia. assert (Hxy : x <> y) by (intros ->; lia).
  destruct (hash_find_wf s x y Hw Hxy) as (r & Hr2 & Hrc). rewrite Hr2 in E. cbn [mbind option_bind] in E.
  destruct Hrc as [[Hr0 Hk]|[-> Hno]].
  - rewrite decide_False in E by done. injection E as <- <-. exists r. done.
  - rewrite decide_True in E by done.
    pose proof (new_and_wp s x y Hw Hy ltac:(lia) ltac:(lia) Hno) as Hn. unfold wp in Hn. rewrite E in Hn.
    destruct Hn as (_ & _ & -> & Hks). exists (size s). split; [done|]. rewrite Hks. apply lookup_snoc_eq.
Qed.

Lemma order_inj a b a' b' : order a b = order a' b' -> (a = a' /\ b = b') \/ (a = b' /\ b = a').
Proof.
  destruct (order_cases a b) as [[-> _]|[-> _]], (order_cases a' b') as [[-> _]|[-> _]]; intros E; injection E as -> ->; auto.
Qed.

Section merge.
Context (heap : list aig) (es : list entry) (np no : nat).
Hypothesis Hmg : mergeable heap es np no.

Definition leader (j : nat) (e : entry) : Prop :=
  es !! j = Some e /\ forall j' e', j' < j -> es !! j' = Some e' -> estor e' <> estor e.

Lemma leader_unique j j' e e' : leader j e -> leader j' e' -> estor e = estor e' -> j = j'.
Proof.
  intros [E H] [E' H'] Hs. destruct (Nat.lt_trichotomy j j') as [Hl|[Hl|Hl]]; [|done|].
  - by destruct (H' _ _ Hl E).
  - by destruct (H _ _ Hl E').
Qed.
Lemma has_leader j e : es !! j = Some e -> exists j' e', j' <= j /\ leader j' e' /\ estor e' = estor e.
Proof.
  revert e. induction j as [j IH] using lt_wf_ind. intros e He.
  destruct (decide (Exists (fun e' => estor e' = estor e) (take j es))) as [Hx|Hx].
  - apply Exists_exists in Hx as (e' & Hin & Hs). apply elem_of_list_lookup in Hin as (j' & Hj').
    pose proof (lookup_lt_Some _ _ _ Hj') as Hl. rewrite take_length in Hl. rewrite lookup_take in Hj' by lia.
    destruct (IH j' ltac:(lia) e' Hj') as (j2 & e2 & ? & ? & ?). exists j2, e2. split; [lia|]. split; [done|congruence].
  - exists j, e. split; [done|]. split; [|done]. split; [done|]. intros j' e' Hl He' Hs. apply Hx.
    apply Exists_exists. exists e'. split; [|done]. apply elem_of_list_lookup. exists j'. by rewrite lookup_take.
Qed.

Lemma first_entry_spec p l k j e : l !! j = Some e -> eptr e = p ->
  (forall j' e', j' < j -> l !! j' = Some e' -> eptr e' <> p) -> first_entry p l k = Some (k + j).
Proof.
  revert k j. induction l as [|x l IH]; intros k j He Hp Hl; [done|]. cbn [first_entry].
  destruct j as [|j]; cbn in He.
  - injection He as ->. rewrite decide_True by done. f_equal. lia.
  - rewrite decide_False by (apply (Hl 0 x); [lia|done]). rewrite (IH (S k) j); [f_equal; lia|done|done|].
    intros j' e' Hlt He'. apply (Hl (S j') e'); [lia|done].
Qed.
Lemma leader_first j e : leader j e -> first_entry (eptr e) es 0 = Some j.
Proof.
  intros [He H]. apply (first_entry_spec _ _ 0 j e); [done|done|]. intros j' e' Hl He' Hp.
  apply (H j' e' Hl He'). apply (mg_ptr _ _ _ _ Hmg); [by eapply elem_of_list_lookup_2..|done].
Qed.

Definition good_net (s : aig) : Prop :=
  reachable s /\ ins s = seq 1 np /\ npi s = np /\ npo s = no /\ length (outs s) = no.
Lemma entry_net j e : es !! j = Some e -> exists s, heap !! estor e = Some s /\ good_net s.
Proof. intros He. apply (mg_net _ _ _ _ Hmg). by eapply elem_of_list_lookup_2. Qed.
Lemma entry_net' j e s : es !! j = Some e -> heap !! estor e = Some s -> good_net s.
Proof. intros He Hs. destruct (entry_net j e He) as (s' & Hs' & Hg). congruence. Qed.

Lemma node_cases s n : good_net s -> n < size s ->
  (is_pi s n = Some true /\ n <= np) \/
  (exists a b, is_pi s n = Some false /\ ks s !! n = Some (a, b) /\ a <> b /\ 0 < sidx a /\ sidx a < sidx b /\ sidx b < n).
Proof.
  intros (Hr & Hi & Hp & _) Hn. pose proof (reachable_wf _ Hr) as Hw. unfold is_pi.
  destruct (lookup_lt_is_Some_2 (ks s) n Hn) as [[a b] Hk]. rewrite Hk. cbn.
  destruct (decide (a = b)) as [->|Hab].
  - left. rewrite bool_decide_true by done. cbn. destruct (decide (n = 0)) as [->|H0].
    + rewrite (wf_const s Hw) in Hk. injection Hk as <-. split; [|lia]. rewrite bool_decide_true; [done|].
      rewrite Hp. apply (mg_in _ _ _ _ Hmg).
    + pose proof (wf_ci s Hw n b Hk H0) as Hc. rewrite Hi in Hc. apply lookup_seq in Hc as [-> Hc].
      rewrite bool_decide_true by lia. split; [done|lia].
  - right. exists a, b. rewrite (bool_decide_false (a = b)) by done. split; [done|]. split; [done|]. split; [done|].
    by apply (topological s n).
Qed.
Lemma not_gate_small s n a b : good_net s -> n <= np -> ks s !! n = Some (a, b) -> a = b.
Proof.
  intros (Hr & Hi & Hp & _) Hn Hk. pose proof (reachable_wf _ Hr) as Hw. destruct (decide (n = 0)) as [->|H0].
  - rewrite (wf_const s Hw) in Hk. congruence.
  - assert (Hin : ins s !! (n - 1) = Some n) by (rewrite Hi; apply lookup_seq; lia).
    destruct (wf_in s Hw _ _ Hin) as [_ Hk']. congruence.
Qed.

(* node n of a network with map j was copied to the AND node m *)
Definition mgate (st : mst) (j : nat) (s : aig) (n m : nat) : Prop := exists a b a' b',
  ks s !! n = Some (a, b) /\ a <> b /\ mmap st j (sidx a) = Some a' /\ mmap st j (sidx b) = Some b' /\
  a' <> b' /\ a' <> 0 /\ b' <> 0 /\ ks (mnew st) !! m = Some (order (Sig a' (scompl a)) (Sig b' (scompl b))).

Record mok (st : mst) : Prop := {
  mk_r : reachable (mnew st);
  mk_npi : npi (mnew st) = np;
  mk_ins : ins (mnew st) = seq 1 np;
  mk_lt : forall j n m, mmap st j n = Some m -> m < size (mnew st);
  mk_pi : forall j k, 1 <= k <= np -> mmap st j k = Some k;
  mk_map : forall j e s n m, leader j e -> heap !! estor e = Some s -> mmap st j n = Some m ->
    (n = 0 /\ m = 0) \/ (1 <= n <= np /\ m = n) \/ mgate st j s n m;
  mk_vis : forall j e n, leader j e -> mvis st (estor e) n = true -> is_Some (mmap st j n)
}.

Record mle (st st' : mst) : Prop := {
  ml_ks : exists t, ks (mnew st') = ks (mnew st) ++ t;
  ml_map : forall j n m, mmap st j n = Some m -> mmap st' j n = Some m;
  ml_vis : forall i n, mvis st i n = true -> mvis st' i n = true
}.
Lemma mle_refl st : mle st st.
Proof. split; [exists []; by rewrite app_nil_r|done|done]. Qed.
Lemma mle_trans st st1 st2 : mle st st1 -> mle st1 st2 -> mle st st2.
Proof.
  intros [[t E] M V] [[t' E'] M' V']. split; [|eauto|eauto]. exists (t ++ t'). rewrite E', E. by rewrite app_assoc.
Qed.
Lemma mgate_mono st st' j s n m : mle st st' -> mgate st j s n m -> mgate st' j s n m.
Proof.
  intros [[t E] M _] (a & b & a' & b' & ? & ? & ? & ? & ? & ? & ? & Hk). exists a, b, a', b'.
  split_and!; eauto. rewrite E. by apply lookup_app_l_Some.
Qed.

Lemma map_nonzero st j e s n m : mok st -> leader j e -> heap !! estor e = Some s -> mmap st j n = Some m -> n <> 0 -> m <> 0.
Proof.
  intros Hok Hl Hs Hm Hn. destruct (mk_map _ Hok j e s n m Hl Hs Hm) as [[? ?]|[[? ->]|Hg]]; [lia|lia|].
  destruct Hg as (a & b & a' & b' & _ & _ & _ & _ & Hab & _ & _ & Hk). intros ->.
  rewrite (wf_const _ (reachable_wf _ (mk_r _ Hok))) in Hk. injection Hk as Hk.
  destruct (order_cases (Sig a' (scompl a)) (Sig b' (scompl b))) as [[E _]|[E _]]; rewrite E in Hk; congruence.
Qed.
Lemma mgate_gt st j s n m : mok st -> mgate st j s n m -> np < m /\ m < size (mnew st).
Proof.
  intros Hok (a & b & a' & b' & _ & _ & _ & _ & Hab & _ & _ & Hk).
  pose proof (reachable_wf _ (mk_r _ Hok)) as Hw. split; [|by apply lookup_lt_Some in Hk].
  destruct (decide (np < m)) as [|Hm]; [done|]. exfalso.
  assert (order (Sig a' (scompl a)) (Sig b' (scompl b)) = (Sig a' (scompl a), Sig b' (scompl b)) \/
          order (Sig a' (scompl a)) (Sig b' (scompl b)) = (Sig b' (scompl b), Sig a' (scompl a))) as Ho.
  { destruct (order_cases (Sig a' (scompl a)) (Sig b' (scompl b))) as [[-> _]|[-> _]]; auto. }
  destruct (decide (m = 0)) as [->|H0].
  - rewrite (wf_const _ Hw) in Hk. destruct Ho as [E|E]; rewrite E in Hk; congruence.
  - assert (Hin : ins (mnew st) !! (m - 1) = Some m) by (rewrite (mk_ins _ Hok); apply lookup_seq; lia).
    destruct (wf_in _ Hw _ _ Hin) as [_ Hk']. rewrite Hk' in Hk. destruct Ho as [E|E]; rewrite E in Hk; congruence.
Qed.

Lemma map_inj st j e s : mok st -> leader j e -> heap !! estor e = Some s ->
  forall n1 n2 m, mmap st j n1 = Some m -> mmap st j n2 = Some m -> n1 = n2.
Proof.
  intros Hok Hl Hs. pose proof (entry_net' _ _ _ (proj1 Hl) Hs) as Hgn. destruct (Hgn) as (Hr & _).
  intros n1. induction n1 as [n1 IH] using lt_wf_ind. intros n2 m H1 H2.
  destruct (mk_map _ Hok j e s n1 m Hl Hs H1) as [[? ?]|[[? ?]|G1]].
  - subst. destruct (decide (n2 = 0)) as [->|Hn]; [done|]. by destruct (map_nonzero _ _ _ _ _ _ Hok Hl Hs H2 Hn).
  - subst. destruct (mk_map _ Hok j e s n2 n1 Hl Hs H2) as [[? ?]|[[? ?]|G2]]; [lia|done|].
    apply mgate_gt in G2; [lia|done].
  - pose proof (mgate_gt _ _ _ _ _ Hok G1) as Hgt.
    destruct (mk_map _ Hok j e s n2 m Hl Hs H2) as [[? ?]|[[? ?]|G2]]; [lia|lia|].
    destruct G1 as (a & b & a' & b' & Hk1 & Hab & Ha & Hb & _ & _ & _ & Hk).
    destruct G2 as (c & d & c' & d' & Hk2 & Hcd & Hc & Hd & _ & _ & _ & Hk').
    rewrite Hk in Hk'. injection Hk' as Hk'.
    destruct (topological _ _ _ _ Hr Hk1 Hab) as (? & ? & ?). destruct (topological _ _ _ _ Hr Hk2 Hcd) as (? & ? & ?).
    apply order_inj in Hk' as [[E1 E2]|[E1 E2]]; injection E1 as -> E1; injection E2 as -> E2.
    + pose proof (IH (sidx a) ltac:(lia) _ _ Ha Hc) as Ia. pose proof (IH (sidx b) ltac:(lia) _ _ Hb Hd) as Ib.
      assert (a = c) as -> by (destruct a, c; cbn in *; congruence).
      assert (b = d) as -> by (destruct b, d; cbn in *; congruence).
      by eapply no_duplicate_gates.
    + pose proof (IH (sidx a) ltac:(lia) _ _ Ha Hd) as Ia. pose proof (IH (sidx b) ltac:(lia) _ _ Hb Hc) as Ib. lia.
Qed.

Lemma map_ev st j e s env : mok st -> leader j e -> heap !! estor e = Some s ->
  forall n m, mmap st j n = Some m -> n < size s -> ev (mnew st) env m = ev s env n.
Proof.
  intros Hok Hl Hs. pose proof (entry_net' _ _ _ (proj1 Hl) Hs) as (Hr & Hi & _).
  pose proof (reachable_wf _ Hr) as Hw. pose proof (reachable_wf _ (mk_r _ Hok)) as Hwn.
  intros n. induction n as [n IH] using lt_wf_ind. intros m Hm Hn.
  destruct (mk_map _ Hok j e s n m Hl Hs Hm) as [[-> ->]|[[? ->]|Hg]].
  - by rewrite !ev_const.
  - rewrite (ev_input (mnew st) env (n - 1)), (ev_input s env (n - 1)); [done|done| |done|].
    + rewrite Hi. apply lookup_seq. lia.
    + rewrite (mk_ins _ Hok). apply lookup_seq. lia.
  - destruct Hg as (a & b & a' & b' & Hk1 & Hab & Ha & Hb & Hab' & _ & _ & Hk).
    destruct (topological _ _ _ _ Hr Hk1 Hab) as (? & ? & ?).
    rewrite (ev_gate s env n a b Hw Hk1 Hab).
    assert (Ea : sval (ev (mnew st) env) (Sig a' (scompl a)) = sval (ev s env) a).
    { unfold sval. cbn [sidx scompl]. by rewrite (IH (sidx a) ltac:(lia) _ Ha) by lia. }
    assert (Eb : sval (ev (mnew st) env) (Sig b' (scompl b)) = sval (ev s env) b).
    { unfold sval. cbn [sidx scompl]. by rewrite (IH (sidx b) ltac:(lia) _ Hb) by lia. }
    destruct (order_cases (Sig a' (scompl a)) (Sig b' (scompl b))) as [[E _]|[E _]]; rewrite E in Hk.
    + rewrite (ev_gate (mnew st) env m _ _ Hwn Hk) by congruence. by rewrite Ea, Eb.
    + rewrite (ev_gate (mnew st) env m _ _ Hwn Hk) by congruence. rewrite Ea, Eb. apply andb_comm.
Qed.

(* what a step that only copies nodes leaves alone *)
Definition mframe (st st' : mst) : Prop :=
  mle st st' /\ outs (mnew st') = outs (mnew st) /\ npo (mnew st') = npo (mnew st) /\ length (outs (mnew st')) = length (outs (mnew st)).
Lemma mframe_refl st : mframe st st.
Proof. split; [apply mle_refl|done]. Qed.
Lemma mframe_trans st st1 st2 : mframe st st1 -> mframe st1 st2 -> mframe st st2.
Proof. intros (? & ? & ? & ?) (? & ? & ? & ?). split; [by eapply mle_trans|]. split_and!; congruence. Qed.

(* change of the copy under construction *)
Lemma mok_new st s' : mok st -> reachable s' -> (exists t, ks s' = ks (mnew st) ++ t) -> ins s' = ins (mnew st) ->
  npi s' = npi (mnew st) -> mok (Mst (mmap st) (mvis st) s').
Proof.
  intros Hok Hr [t Ht] Hi Hp.
  assert (Hle : mle st (Mst (mmap st) (mvis st) s')) by (split; [by exists t|done|done]).
  split; cbn.
  - done.
  - rewrite Hp. apply Hok.
  - rewrite Hi. apply Hok.
  - intros j n m Hm. pose proof (mk_lt _ Hok _ _ _ Hm). unfold size in *. rewrite Ht, app_length. lia.
  - apply Hok.
  - intros j e s n m Hl Hs Hm. destruct (mk_map _ Hok j e s n m Hl Hs Hm) as [?|[?|Hg]]; [by left|right; by left|right; right].
    eapply mgate_mono in Hg; [|exact Hle]. exact Hg.
  - apply Hok.
Qed.

Lemma mok_insert st j n m : mok st -> m < size (mnew st) ->
  (mmap st j n = None -> forall e s, leader j e -> heap !! estor e = Some s ->
     (n = 0 /\ m = 0) \/ mgate st j s n m) ->
  wp (map_insert j n m) st (fun _ st' => mok st' /\ mframe st st' /\ is_Some (mmap st' j n) /\ mvis st' = mvis st).
Proof.
  intros Hok Hm Hg. unfold wp, map_insert. destruct (mmap st j n) as [m0|] eqn:Em.
  { split; [done|]. split; [apply mframe_refl|]. split; [by exists m0|done]. }
  set (st' := Mst _ _ _).
  assert (Hle : mle st st').
  { split; [exists []; by rewrite app_nil_r| |done]. intros j' n' m' H'. cbn. rewrite decide_False; [done|]. intros [-> ->]. congruence. }
  split; [|split; [split; [exact Hle|done]|split; [cbn; rewrite decide_True by done; by eexists|done]]].
  split; cbn.
  - apply Hok.
  - apply Hok.
  - apply Hok.
  - intros j' n' m'. case_decide as Hd; [intros [= <-]; done|]. apply Hok.
  - intros j' k Hk. rewrite decide_False; [by apply Hok|]. intros [-> ->]. rewrite (mk_pi _ Hok) in Em; [done|lia].
  - intros j' e s n' m' Hl Hs. case_decide as Hd.
    + destruct Hd as [-> ->]. intros [= <-]. destruct (Hg eq_refl e s Hl Hs) as [?|?]; [by left|].
      right; right. by eapply mgate_mono.
    + intros H'. destruct (mk_map _ Hok j' e s n' m' Hl Hs H') as [?|[?|?]]; [by left|right; by left|right; right; by eapply mgate_mono].
  - intros j' e n' Hl Hv. case_decide; [by eexists|]. by apply (mk_vis _ Hok j' e).
Qed.

Lemma create_node_wp st j e s n a b : mok st -> leader j e -> heap !! estor e = Some s -> ks s !! n = Some (a, b) -> a <> b ->
  is_Some (mmap st j (sidx a)) -> is_Some (mmap st j (sidx b)) ->
  wp (create_node es (eptr e) s n) st (fun _ st' => mok st' /\ mframe st st' /\ is_Some (mmap st' j n) /\ mvis st' = mvis st).
Proof.
  intros Hok Hl Hs Hk Hab [a' Ha] [b' Hb]. pose proof (entry_net' _ _ _ (proj1 Hl) Hs) as (Hr & _).
  destruct (topological _ _ _ _ Hr Hk Hab) as (? & ? & ?).
  unfold wp, create_node, get_id. rewrite Hk, (leader_first j e Hl). cbn [mbind option_bind fst snd]. rewrite Ha. cbn [mbind option_bind]. rewrite Hb.
  cbn [mbind option_bind].
  change (wp (let! f := new_op (create_and (Sig a' (scompl a)) (Sig b' (scompl b))) in
    let! j0 := lift (Some j) in map_insert j0 n (sidx f)) st
    (fun _ st' => mok st' /\ mframe st st' /\ is_Some (mmap st' j n) /\ mvis st' = mvis st)).
  assert (Ha0 : a' <> 0) by (eapply map_nonzero; eauto; lia).
  assert (Hb0 : b' <> 0) by (eapply map_nonzero; eauto; lia).
  assert (Hab' : a' <> b').
  { intros ->. pose proof (map_inj _ _ _ _ Hok Hl Hs _ _ _ Ha Hb). lia. }
  pose proof (create_and_gate (mnew st) (Sig a' (scompl a)) (Sig b' (scompl b)) (mk_r _ Hok)
    (mk_lt _ Hok _ _ _ Ha) (mk_lt _ Hok _ _ _ Hb) Hab' Ha0 Hb0) as Hc.
  apply wp_elim in Hc as (f & s' & E & Hr' & He & m & -> & Hkm).
  apply wp_bnd. unfold wp, new_op. rewrite E. apply wp_bnd. apply (wp_lift _ j); [done|].
  set (st1 := Mst _ _ s').
  assert (Hok1 : mok st1) by (apply mok_new; [done|done|apply (ext_ks _ _ He)|apply (ext_ins _ _ He)|apply (ext_npi _ _ He)]).
  assert (Hf : mframe st st1).
  { split; [split; [apply (ext_ks _ _ He)|done|done]|]. cbn. rewrite (ext_outs _ _ He), (ext_npo _ _ He). done. }
  eapply wp_mono; [apply mok_insert; [exact Hok1| |]|].
  - cbn. by apply lookup_lt_Some in Hkm.
  - intros _ e' s2 Hl' Hs'. right. destruct Hl as [El _], Hl' as [El' _]. rewrite El in El'. injection El' as <-.
    rewrite Hs in Hs'. injection Hs' as <-. exists a, b, a', b'. done.
  - cbn beta. intros _ st' (? & ? & ? & Hv). split; [done|]. split; [by eapply mframe_trans|]. done.
Qed.

Lemma dfs_wp j e s : leader j e -> heap !! estor e = Some s ->
  forall fuel n st, n < fuel -> n < size s -> mok st ->
  wp (dfs es fuel e s n) st (fun _ st' => mok st' /\ mframe st st' /\ (n = 0 \/ is_Some (mmap st' j n)) /\
    (is_pi s n = Some true \/ mvis st' (estor e) n = true)).
Proof.
  intros Hl Hs. pose proof (entry_net' _ _ _ (proj1 Hl) Hs) as Hgn.
  induction fuel as [|fuel IH]; intros n st Hf Hn Hok; [lia|].
  unfold wp. cbn [dfs]. destruct (node_cases s n Hgn Hn) as [[Hp Hnp]|(a & b & Hp & Hk & Hab & ? & ? & ?)].
  { rewrite Hp. cbn [mbind option_bind]. split; [done|]. split; [apply mframe_refl|]. split; [|by left].
    destruct n; [by left|right]. eexists. apply (mk_pi _ Hok). lia. }
  rewrite Hp. cbn [mbind option_bind]. destruct (mvis st (estor e) n) eqn:Ev.
  { split; [done|]. split; [apply mframe_refl|]. split; [|by right]. right. by eapply (mk_vis _ Hok). }
  rewrite Hk. cbn [mbind option_bind fst snd].
  match goal with |- match ?c st with _ => _ end => change (wp c st (fun _ st' => mok st' /\ mframe st st' /\ (n = 0 \/ is_Some (mmap st' j n)) /\
    (Some false = Some true \/ mvis st' (estor e) n = true))) end.
  apply wp_bnd. eapply wp_mono; [apply IH; [lia|lia|done]|]. cbn beta. intros _ st1 (Hok1 & Hf1 & Ha & _).
  apply wp_bnd. eapply wp_mono; [apply IH; [lia|lia|done]|]. cbn beta. intros _ st2 (Hok2 & Hf2 & Hb & _).
  destruct Ha as [?|[a' Ha]]; [lia|]. destruct Hb as [?|Hb]; [lia|].
  apply wp_bnd. eapply wp_mono; [eapply create_node_wp; [exact Hok2|exact Hl|exact Hs|exact Hk|exact Hab| |exact Hb]|].
  { exists a'. apply Hf2. done. }
  cbn beta. intros _ st3 (Hok3 & Hf3 & Hm & Hv3).
  unfold wp. set (st4 := Mst _ _ _).
  assert (Hf4 : mframe st3 st4).
  { split; [|done]. split; [exists []; by rewrite app_nil_r|done|]. intros i m Hv. cbn. by case_decide. }
  split.
  - split; cbn; try apply Hok3. intros j' e' m Hl'. case_decide as Hd; [|apply (mk_vis _ Hok3 j' e' m Hl')].
    destruct Hd as [Hd ->]. intros _. rewrite (leader_unique j' j e' e Hl' Hl Hd). exact Hm.
  - split; [repeat (eapply mframe_trans; [eassumption|]); apply mframe_refl|].
    split; [right; exact Hm|]. right. cbn. by rewrite decide_True.
Qed.

(* the root of output i of network j has been handled *)
Definition rdone (st : mst) (i j : nat) : Prop := forall e s f, es !! j = Some e -> heap !! estor e = Some s ->
  outs s !! i = Some f -> is_pi s (sidx f) = Some true \/ mvis st (estor e) (sidx f) = true.
Lemma rdone_mono st st' i j : mle st st' -> rdone st i j -> rdone st' i j.
Proof. intros Hle H e s f He Hs Hf. destruct (H e s f He Hs Hf) as [?|?]; [by left|right]. by apply Hle. Qed.

Definition radded (st st' : mst) (i j : nat) : Prop := exists e s f m,
  es !! j = Some e /\ heap !! estor e = Some s /\ outs s !! i = Some f /\
  outs (mnew st') = outs (mnew st) ++ [Sig m (scompl f)] /\ npo (mnew st') = S (npo (mnew st)) /\
  mmap st' j (sidx f) = Some m.

Lemma add_output_wp st i j : mok st -> i < no -> j < length es -> (forall j', j' < j -> rdone st i j') ->
  wp (add_output heap es i j) st (fun _ st' => mok st' /\ mle st st' /\ rdone st' i j /\ radded st st' i j).
Proof.
  intros Hok Hi Hj Hprev. destruct (lookup_lt_is_Some_2 es j Hj) as [e He].
  destruct (entry_net j e He) as (s & Hs & Hgn). destruct (Hgn) as (Hr & Hins & Hnpi & Hnpo & Hout).
  destruct (lookup_lt_is_Some_2 (outs s) i ltac:(lia)) as [f Hf].
  assert (Hfv : sidx f < size s) by (eapply (wf_out s (reachable_wf _ Hr)), elem_of_list_lookup_2, Hf).
  unfold wp, add_output. rewrite He. cbn [mbind option_bind]. rewrite Hs. cbn [mbind option_bind].
  unfold po_at. rewrite decide_True by lia. rewrite Hf. cbn [mbind option_bind].
  match goal with |- match ?c st with _ => _ end => change (wp c st (fun _ st' => mok st' /\ mle st st' /\ rdone st' i j /\ radded st st' i j)) end.
  apply wp_bnd.
  assert (Hdfs : wp (dfs es (S (size s)) e s (sidx f)) st (fun _ st' => mok st' /\ mframe st st' /\
     (leader j e -> sidx f = 0 \/ is_Some (mmap st' j (sidx f))) /\
     (is_pi s (sidx f) = Some true \/ mvis st' (estor e) (sidx f) = true))).
  { destruct (has_leader j e He) as (j' & e' & Hle & Hl & Hst).
    destruct (decide (j' = j)) as [->|Hne].
    - destruct (Hl) as [He2 _]. rewrite He in He2. injection He2 as <-.
      eapply wp_mono; [eapply (dfs_wp j e s Hl Hs); [lia|done|done]|]. cbn beta. intros _ st' (? & ? & ? & ?). done.
    - destruct (Hprev j' ltac:(lia) e' s f (proj1 Hl) ltac:(by rewrite Hst) Hf) as [Hp|Hv].
      + unfold wp. cbn [dfs]. rewrite Hp. cbn [mbind option_bind]. split; [done|]. split; [apply mframe_refl|]. split; [|by left].
        intros Hl'. by destruct (leader_unique _ _ _ _ Hl Hl' Hst).
      + rewrite Hst in Hv. unfold wp. cbn [dfs]. destruct (node_cases s (sidx f) Hgn Hfv) as [[Hp _]|(? & ? & Hp & _)]; rewrite Hp; cbn [mbind option_bind].
        * split; [done|]. split; [apply mframe_refl|]. split; [|by left]. intros Hl'. by destruct (leader_unique _ _ _ _ Hl Hl' Hst).
        * rewrite Hv. split; [done|]. split; [apply mframe_refl|]. split; [|by right]. intros Hl'. by destruct (leader_unique _ _ _ _ Hl Hl' Hst). }
  eapply wp_mono; [exact Hdfs|]. cbn beta. intros _ st1 (Hok1 & Hf1 & Hm1 & Hd1).
  apply wp_bnd. eapply wp_mono; [apply mok_insert; [exact Hok1| |]|].
  { apply wf_size, reachable_wf, Hok1. }
  { intros Hnone e' s' Hl Hs'. left. split; [|done]. destruct (Hl) as [He' _]. rewrite He in He'. injection He' as <-.
    destruct (Hm1 Hl) as [?|[? ?]]; [done|congruence]. }
  cbn beta. intros _ st2 (Hok2 & Hf2 & [m Hm2] & Hv2).
  apply wp_bnd, wp_get. apply wp_bnd. eapply wp_lift; [exact Hm2|].
  apply wp_bnd. pose proof (create_po_r (mnew st2) (Sig m (scompl f)) (mk_r _ Hok2) (mk_lt _ Hok2 _ _ _ Hm2)) as Hc.
  apply wp_elim in Hc as (r & s3 & E & Hr3 & Hks & Hin3 & Ho3 & Hnpi3 & Hnpo3 & _).
  unfold wp, new_op. rewrite E. cbn [ret].
  assert (Hok3 : mok (Mst (mmap st2) (mvis st2) s3)).
  { apply mok_new; [done|done| |done|done]. exists []. by rewrite app_nil_r. }
  assert (Hle3 : mle st2 (Mst (mmap st2) (mvis st2) s3)).
  { split; [exists []; by rewrite app_nil_r|done|done]. }
  destruct Hf1 as (Hle1 & Ho1 & Hn1 & _), Hf2 as (Hle2 & Ho2 & Hn2 & _).
  split; [done|]. split; [eapply mle_trans; [exact Hle1|]; by eapply mle_trans|]. split.
  - intros e2 s2 f2 He2 Hs2 Hf2'. rewrite He in He2. injection He2 as <-. rewrite Hs in Hs2. injection Hs2 as <-.
    rewrite Hf in Hf2'. injection Hf2' as <-. destruct Hd1 as [?|Hd1]; [by left|right]. cbn. by rewrite Hv2.
  - exists e, s, f, m. cbn. split_and!; try done; congruence.
Qed.

Lemma seq_split_at k n p (x : nat) q : seq k n = p ++ x :: q -> x = k + length p /\ length p < n.
Proof.
  intros E. assert (Hl : seq k n !! length p = Some x) by (rewrite E; apply list_lookup_middle; done).
  apply lookup_seq in Hl. lia.
Qed.

(* state after the outputs 0 .. k-1 *)
Record louts (st : mst) (k : nat) : Prop := {
  lo_ok : mok st;
  lo_len : length (outs (mnew st)) = k * length es;
  lo_npo : npo (mnew st) = length (outs (mnew st));
  lo_done : forall i j, i < k -> j < length es -> rdone st i j;
  lo_outs : forall i e s f, i < k -> es !! 0 = Some e -> heap !! estor e = Some s -> outs s !! i = Some f ->
    exists m, outs (mnew st) !! (i * length es) = Some (Sig m (scompl f)) /\ mmap st 0 (sidx f) = Some m
}.

Lemma outputs_of_wp st i : louts st i -> i < no ->
  wp (mapM (fun j => add_output heap es i j) (seq 0 (length es))) st (fun _ st' => louts st' (S i)).
Proof.
  intros Hlo Hi. pose proof (mg_num _ _ _ _ Hmg) as HN.
  set (I := fun (p : list nat) (_ : list unit) (st' : mst) => mok st' /\ mle st st' /\ (forall j, j < length p -> rdone st' i j) /\
    npo (mnew st') = length (outs (mnew st')) /\
    exists t, outs (mnew st') = outs (mnew st) ++ t /\ length t = length p /\
      (0 < length p -> exists e s f m, es !! 0 = Some e /\ heap !! estor e = Some s /\ outs s !! i = Some f /\
         t !! 0 = Some (Sig m (scompl f)) /\ mmap st' 0 (sidx f) = Some m)).
  eapply wp_mono; [apply (mapM_wp _ I)|].
  - split; [apply Hlo|]. split; [apply mle_refl|]. split; [cbn; lia|]. split; [apply Hlo|].
    exists []. rewrite app_nil_r. split; [done|]. split; [done|]. cbn. lia.
  - intros p x q r st1 E (Hok & Hle & Hd & Hn & t & Ho & Hlt & H0). apply seq_split_at in E as [-> Hp]. cbn [Nat.add].
    eapply wp_mono; [apply add_output_wp; [done|done|done|done]|]. cbn beta. intros y st2 (Hok2 & Hle2 & Hd2 & Ha).
    destruct Ha as (e & s & f & m & He & Hs & Hf & Ho2 & Hn2 & Hm).
    split; [done|]. split; [by eapply mle_trans|]. split.
    { intros j Hj. rewrite app_length in Hj. cbn in Hj. destruct (decide (j = length p)) as [->|]; [done|].
      eapply rdone_mono; [exact Hle2|]. apply Hd. lia. }
    split; [rewrite Hn2, Ho2, app_length, Hn; cbn; lia|].
    exists (t ++ [Sig m (scompl f)]). split; [rewrite Ho2, Ho; by rewrite app_assoc|].
    split; [rewrite !app_length; cbn; lia|]. intros _. destruct (decide (length p = 0)) as [Hz|Hz].
    + exists e, s, f, m. rewrite Hz in He, Hm. split_and!; try done. rewrite lookup_app_r by lia. by rewrite Hlt, Hz.
    + destruct (H0 ltac:(lia)) as (e0 & s0 & f0 & m0 & ? & ? & ? & Ht & Hm0). exists e0, s0, f0, m0.
      split_and!; try done; [by apply lookup_app_l_Some|by apply Hle2].
  - cbn beta. intros _ st' (Hok & Hle & Hd & Hn & t & Ho & Hlt & H0). rewrite seq_length in *.
    split; [done| | | |].
    + rewrite Ho, app_length, (lo_len _ _ Hlo), Hlt. lia.
    + done.
    + intros i' j Hi' Hj. destruct (decide (i' = i)) as [->|]; [by apply Hd|].
      eapply rdone_mono; [exact Hle|]. apply Hlo; lia.
    + intros i' e s f Hi' He Hs Hf. destruct (decide (i' = i)) as [->|].
      * destruct (H0 ltac:(lia)) as (e0 & s0 & f0 & m0 & He0 & Hs0 & Hf0 & Ht & Hm0).
        rewrite He in He0. injection He0 as <-. rewrite Hs in Hs0. injection Hs0 as <-. rewrite Hf in Hf0. injection Hf0 as <-.
        exists m0. split; [|done]. rewrite Ho, lookup_app_r by (rewrite (lo_len _ _ Hlo); lia).
        by rewrite (lo_len _ _ Hlo), Nat.sub_diag.
      * destruct (lo_outs _ _ Hlo i' e s f ltac:(lia) He Hs Hf) as (m & Hm1 & Hm2). exists m.
        split; [|by apply Hle]. rewrite Ho. by apply lookup_app_l_Some.
Qed.

Lemma outputs_wp st : louts st 0 ->
  wp (mapM (fun i => mapM (fun j => add_output heap es i j) (seq 0 (length es))) (seq 0 no)) st (fun _ st' => louts st' no).
Proof.
  intros H0. eapply wp_mono; [apply (mapM_wp _ (fun p _ st' => louts st' (length p)))|].
  - done.
  - intros p x q r st1 E Hlo. apply seq_split_at in E as [-> Hp]. cbn [Nat.add].
    eapply wp_mono; [by apply outputs_of_wp|]. cbn beta. intros y st2 ?. rewrite app_length. cbn [length]. by rewrite Nat.add_1_r.
  - cbn beta. intros _ st'. by rewrite seq_length.
Qed.

Lemma create_pis_wp b : 0 < b ->
  wp (mapM (fun _ => create_pi) (seq 0 np)) (aig_init_n b) (fun _ s => reachable s /\ size s = S np /\ ins s = seq 1 np /\
    npi s = np /\ npo s = 0 /\ outs s = []).
Proof.
  intros Hb. eapply wp_mono; [apply (mapM_wp _ (fun p _ s => reachable s /\ size s = S (length p) /\ ins s = seq 1 (length p) /\
    npi s = length p /\ npo s = 0 /\ outs s = []))|].
  - split; [by constructor|]. done.
  - intros p x q r s _ (Hr & Hsz & Hi & Hn & Ho & Hp). eapply wp_mono; [by apply create_pi_r|]. cbn beta.
    intros f s' (Hr' & -> & Hk & Hi' & Ho' & Hn' & Hp' & _). rewrite app_length. cbn [length].
    split_and!; [done| | | |congruence|congruence].
    + unfold size in *. rewrite Hk, app_length, Hsz. done.
    + rewrite Hi', Hi, Hsz, Nat.add_1_r, seq_S. done.
    + rewrite Hn', Hn. lia.
  - cbn beta. intros _ s. by rewrite seq_length.
Qed.

Lemma keep_lookup n : 0 < n -> forall l c i, keep n c l !! i = l !! (i * n + (n - c mod n) mod n).
Proof.
  intros Hn l. induction l as [|f l IH]; intros c i; [done|]. cbn [keep].
  assert (HS : S c mod n = if decide (S (c mod n) = n) then 0 else S (c mod n)).
  { replace (S c) with (c + 1) by lia. rewrite Nat.add_mod by lia. pose proof (Nat.mod_upper_bound c n ltac:(lia)). case_decide as Hd.
    - destruct (decide (n = 1)) as [->|]; [by rewrite !Nat.mod_1_r|]. rewrite (Nat.mod_small 1) by lia.
      replace (c mod n + 1) with n by lia. apply Nat.mod_same. lia.
    - rewrite (Nat.mod_small 1) by lia. rewrite Nat.mod_small; lia. }
  pose proof (Nat.mod_upper_bound c n ltac:(lia)) as Hb. destruct (decide (c mod n = 0)) as [Hc|Hc].
  - rewrite Hc, Nat.sub_0_r, Nat.mod_same, Nat.add_0_r by lia. destruct i as [|i]; [done|]. cbn [lookup list_lookup].
    change (keep n (S c) l !! i = (f :: l) !! (S i * n)). rewrite IH, HS, Hc. clear HS. case_decide.
    + replace n with 1 by lia. rewrite Nat.sub_0_r, Nat.mod_1_r. replace (S i * 1) with (S (i * 1 + 0)) by lia. done.
    + rewrite Nat.mod_small by lia. replace (S i * n) with (S (i * n + (n - 1))) by lia. done.
  - rewrite IH, HS. clear HS. rewrite (Nat.mod_small (n - c mod n)) by lia. case_decide.
    + rewrite Nat.sub_0_r, Nat.mod_same by lia. replace (i * n + (n - c mod n)) with (S (i * n + 0)) by lia. done.
    + rewrite Nat.mod_small by lia. replace (i * n + (n - c mod n)) with (S (i * n + (n - S (c mod n)))) by lia. done.
Qed.
Lemma keep_length n k l : 0 < n -> length l = k * n -> length (keep n 0 l) = k.
Proof.
  intros Hn Hl.
  assert (H : forall i, is_Some (keep n 0 l !! i) <-> i < k).
  { intros i. rewrite keep_lookup by done. rewrite Nat.mod_0_l, Nat.sub_0_r, Nat.mod_same, Nat.add_0_r by lia.
    rewrite lookup_lt_is_Some, Hl. split; intros; nia. }
  pose proof (H k) as H1. pose proof (H (length (keep n 0 l))) as H2. rewrite lookup_lt_is_Some in H1, H2.
  destruct (Nat.lt_trichotomy (length (keep n 0 l)) k) as [?|[?|?]]; [|done|]; lia.
Qed.
Lemma keep_lookup0 n l i : 0 < n -> keep n 0 l !! i = l !! (i * n).
Proof. intros Hn. rewrite keep_lookup by done. rewrite Nat.mod_0_l, Nat.sub_0_r, Nat.mod_same, Nat.add_0_r by lia. done. Qed.

Lemma same_interface_true e0 s0 : es !! 0 = Some e0 -> heap !! estor e0 = Some s0 -> same_interface heap s0 es = Some true.
Proof.
  intros He Hs. destruct (entry_net' _ _ _ He Hs) as (_ & _ & Hp0 & Ho0 & _).
  enough (H : forall l, (forall e, e ∈ l -> e ∈ es) -> same_interface heap s0 l = Some true) by (apply H; done).
  induction l as [|e l IH]; intros Hl; [done|]. cbn [same_interface].
  destruct (mg_net _ _ _ _ Hmg e ltac:(apply Hl; left)) as (s & -> & _ & _ & Hp & Ho & _). cbn [mbind option_bind].
  rewrite IH by (intros; apply Hl; by right). cbn [mbind option_bind]. rewrite !bool_decide_true by lia. done.
Qed.

(* the copy made of the cone of an output *)
Lemma cone_mapped st j e s n n' : mok st -> leader j e -> heap !! estor e = Some s -> is_Some (mmap st j n) ->
  rtc (fanin s) n n' -> is_Some (mmap st j n').
Proof.
  intros Hok Hl Hs Hm Hrtc. induction Hrtc as [|x y z Hxy _ IH]; [done|]. apply IH. destruct Hm as [m Hm].
  destruct Hxy as (a & b & Hk & Hx & Hab & Hy).
  pose proof (entry_net' _ _ _ (proj1 Hl) Hs) as Hgn.
  destruct (mk_map _ Hok j e s x m Hl Hs Hm) as [[? _]|[[? _]|Hg]]; [done| |].
  - by destruct Hab; eapply (not_gate_small s x); [done|lia|].
  - destruct Hg as (a2 & b2 & a' & b' & Hk2 & _ & Ha & Hb & _). rewrite Hk in Hk2. injection Hk2 as <- <-.
    destruct Hy as [-> | ->]; eauto.
Qed.

Theorem merge_spec b : 0 < b -> exists t,
  merge heap es (aig_init_n b) = Some t /\ network t /\ npi t = np /\ ins t = seq 1 np /\ npo t = no /\ length (outs t) = no /\
  (forall e s i f, es !! 0 = Some e -> heap !! estor e = Some s -> outs s !! i = Some f ->
     exists g, outs t !! i = Some g /\ forall env, sval (ev t env) g = sval (ev s env) f) /\
  (forall e s i f n, e ∈ es -> heap !! estor e = Some s -> outs s !! i = Some f -> rtc (fanin s) (sidx f) n ->
     exists m, m < size t /\ forall env, ev t env m = ev s env n) /\
  exists t0, wf t0 /\ ks t = ks t0 /\ ins t = ins t0 /\ reachable t0 /\ ph t = ph t0.
Proof.
  intros Hb. pose proof (mg_num _ _ _ _ Hmg) as HN. destruct (lookup_lt_is_Some_2 es 0 ltac:(lia)) as [e0 He0].
  destruct (entry_net 0 e0 He0) as (s0 & Hs0 & Hg0). destruct (Hg0) as (Hr0 & _ & Hp0 & Ho0 & Hl0).
  unfold merge. rewrite He0. cbn [mbind option_bind]. rewrite Hs0. cbn [mbind option_bind].
  rewrite decide_False by lia. rewrite (same_interface_true e0 s0 He0 Hs0). cbn [mbind option_bind negb].
  rewrite decide_False by lia. rewrite Hp0, Ho0.
  pose proof (create_pis_wp b Hb) as H1. apply wp_elim in H1 as (r1 & new1 & E1 & Hr1 & Hsz1 & Hi1 & Hn1 & Hpo1 & Hou1).
  rewrite E1. cbn [mbind option_bind].
  set (st0 := Mst _ _ new1).
  assert (Hlo0 : louts st0 0).
  { split; cbn; [|by rewrite Hou1|by rewrite Hou1|lia|lia].
    split; cbn; [done|done|done| | | |done].
    - intros j n m. case_decide; [|done]. intros [= <-]. lia.
    - intros j k Hk. by rewrite decide_True.
    - intros j e s n m Hl Hs. case_decide; [|done]. intros [= <-]. right; left. done. }
  pose proof (outputs_wp st0 Hlo0) as H2. apply wp_elim in H2 as (r2 & st & E2 & Hlo).
  rewrite E2. cbn [mbind option_bind]. eexists. split; [reflexivity|].
  pose proof (lo_ok _ _ Hlo) as Hok. pose proof (reachable_wf _ (mk_r _ Hok)) as Hw.
  assert (Hkl : length (keep (length es) 0 (outs (mnew st))) = no) by (apply keep_length; [lia|apply Hlo]).
  assert (Hnpo' : npo (mnew st) - (length (outs (mnew st)) - length (keep (length es) 0 (outs (mnew st)))) = no).
  { rewrite Hkl, (lo_npo _ _ Hlo), (lo_len _ _ Hlo). nia. }
  assert (Hev : forall env n, ev (Aig (ks (mnew st)) (nx (mnew st)) (fo (mnew st)) (ph (mnew st)) (ins (mnew st))
     (keep (length es) 0 (outs (mnew st))) (npi (mnew st)) (npo (mnew st) - (length (outs (mnew st)) - length (keep (length es) 0 (outs (mnew st))))) (lat (mnew st)) (hs (mnew st)) (ne (mnew st))) env n = ev (mnew st) env n) by done.
  split_and!.
  - pose proof (wf_network _ Hw) as [H1 H2 H3 H4 H5 H6 H7 H8 H9]. split; cbn; try done.
    + apply Forall_lookup. intros i g Hg. rewrite keep_lookup0 in Hg by lia.
      by apply (Forall_lookup_1 _ _ _ _ H6 Hg).
    + rewrite Hnpo', Hkl. done.
  - cbn. apply Hok.
  - cbn. apply Hok.
  - cbn. exact Hnpo'.
  - cbn. exact Hkl.
  - intros e s i f He Hs Hf. cbn. rewrite <- He0 in He.
    assert (Hi : i < no). { destruct (entry_net' _ _ _ He Hs) as (_ & _ & _ & _ & Hl). apply lookup_lt_Some in Hf. lia. }
    destruct (lo_outs _ _ Hlo i e s f Hi He Hs Hf) as (m & Hm1 & Hm2).
    exists (Sig m (scompl f)). split; [rewrite keep_lookup0 by lia; exact Hm1|]. intros env. unfold sval. cbn [sidx scompl].
    f_equal. rewrite Hev. assert (Hl : leader 0 e) by (split; [done|lia]).
    apply (map_ev st 0 e s env Hok Hl Hs _ _ Hm2).
    destruct (entry_net' _ _ _ He Hs) as (Hr & _). eapply (wf_out s (reachable_wf _ Hr)), elem_of_list_lookup_2, Hf.
  - intros e s i f n He Hs Hf Hn. apply elem_of_list_lookup in He as (j & He).
    pose proof (entry_net' _ _ _ He Hs) as Hgn. destruct (Hgn) as (Hr & _ & _ & _ & Hl).
    assert (Hi : i < no) by (apply lookup_lt_Some in Hf; lia).
    assert (Hfv : sidx f < size s) by (eapply (wf_out s (reachable_wf _ Hr)), elem_of_list_lookup_2, Hf).
    destruct (has_leader j e He) as (j' & e' & Hj' & Hld & Hst).
    assert (Hnv : n < size s).
    { apply rtc_inv_r in Hn as [<-|(y & _ & Hy)]; [done|]. apply (net_gate s (wf_network _ (reachable_wf _ Hr)) _ _ Hy). }
    destruct (decide (n = 0)) as [->|Hn0].
    { exists 0. split; [exact (wf_size _ Hw)|]. intros env. rewrite Hev, !ev_const; [done|by apply reachable_wf|done]. }
    assert (Hmn : is_Some (mmap st j' n)).
    { destruct (decide (sidx f = 0)) as [Hz|Hz].
      - exfalso. rewrite Hz in Hn. inversion Hn as [|? y ? Hy]; subst; [done|]. destruct Hy as (? & ? & _ & Hy & _). done.
      - eapply (cone_mapped st j' e' s (sidx f)); [done|done|by rewrite Hst| |done].
        destruct (lo_done _ _ Hlo i j' Hi ltac:(apply lookup_lt_Some in He; lia) e' s f (proj1 Hld) ltac:(by rewrite Hst) Hf) as [Hp|Hv].
        + destruct (node_cases s (sidx f) Hgn Hfv) as [[_ Hle]|(a & b' & Hp' & _)]; [|congruence].
          exists (sidx f). apply (mk_pi _ Hok). lia.
        + by apply (mk_vis _ Hok j' e'). }
    destruct Hmn as [m Hm]. exists m. split; [by apply (mk_lt _ Hok _ _ _ Hm)|]. intros env. rewrite Hev.
    apply (map_ev st j' e' s env Hok Hld ltac:(by rewrite Hst) _ _ Hm Hnv).
  - exists (mnew st). split_and!; try done. apply Hok.
Qed.
End merge.
