From Verif Require Import Base Aig AigSem AigProofs Topo Clean NetProofs CleanProofs Subst SubstProofs RefDeref RefDerefProofs Rewrite.

Definition redk (old : nat) (new : signal) (k : key) : key := (redirect old new k.1, redirect old new k.2).

Lemma redirect_idem old new o : sidx new <> old -> redirect old new (redirect old new o) = redirect old new o.
Proof. intros H. unfold redirect. repeat case_decide; done. Qed.
Lemma redk_idem old new k : sidx new <> old -> redk old new (redk old new k) = redk old new k.
Proof. intros H. unfold redk. cbn. by rewrite !redirect_idem. Qed.

Lemma rewire_fold old new F s : sidx new <> old -> Forall (fun f => sidx f < size s) F ->
  exists s', foldM (rewire old new) tt F s = Some (tt, s') /\ s' = set_ks s (ks s') /\ length (ks s') = length (ks s) /\
    forall n k, ks s !! n = Some k -> ks s' !! n = Some (if decide (n ∈ map sidx F) then redk old new k else k).
Proof.
  intros Hne. revert s. induction F as [|f F IH]; intros s HF.
  { exists s. split; [done|]. split; [by destruct s|]. split; [done|]. intros n k Hk. cbn.
    destruct (decide (n ∈ [])) as [H|_]; [by apply elem_of_nil in H|done]. }
  apply Forall_cons in HF as [Hf HF]. destruct (lookup_lt_is_Some_2 (ks s) (sidx f) Hf) as [k0 Hk0].
  set (s1 := set_key (sidx f) (redirect old new k0.1, redirect old new k0.2) s).
  assert (E1 : rewire old new tt f s = Some (tt, s1)) by (unfold rewire; by rewrite Hk0).
  cbn [foldM]. unfold bnd. rewrite E1.
  assert (Hsz : size s1 = size s) by (unfold size; cbn; by rewrite insert_length).
  destruct (IH s1) as (s' & E & Hs' & Hl & Hk); [by rewrite Hsz|]. exists s'. split; [done|].
  split; [rewrite Hs'; done|]. split; [unfold size in Hsz; congruence|].
  intros n k Hn. destruct (decide (n = sidx f)) as [->|Hnf].
  - assert (k = k0) as -> by congruence.
    rewrite (Hk (sidx f) (redk old new k0)) by (cbn; by apply list_lookup_insert).
    rewrite redk_idem by done. rewrite (decide_True (P := sidx f ∈ map sidx (f :: F))) by (cbn; left). by case_decide.
  - rewrite (Hk n k) by (cbn; by rewrite list_lookup_insert_ne).
    f_equal. cbn [map]. destruct (decide (n ∈ map sidx F)) as [Hin|Hin].
    + by rewrite decide_True by (right; exact Hin).
    + rewrite decide_False; [done|]. by intros [?|?]%elem_of_cons.
Qed.

Lemma first_po_some old new l l' : first_po old new l = Some l' ->
  exists l1 po l2, l = l1 ++ po :: l2 /\ sidx po = old /\ Forall (fun f => sidx f <> old) l1 /\ l' = l1 ++ sxor new (scompl po) :: l2.
Proof.
  revert l'. induction l as [|po l IH]; intros l'; [done|]. cbn. case_decide as Hd.
  - intros [= <-]. exists [], po, l. split_and!; [done|done|constructor|]. cbn. unfold sxor. f_equal. f_equal. apply xorb_comm.
  - destruct (first_po old new l) as [l''|]; [|done]. cbn. intros [= <-].
    destruct (IH l'' eq_refl) as (l1 & p & l2 & -> & Hp & Hf & ->). exists (po :: l1), p, l2. split_and!; [done|done|by constructor|done].
Qed.
Lemma first_po_none old new l : first_po old new l = None -> Forall (fun f => sidx f <> old) l.
Proof.
  induction l as [|po l IH]; [constructor|]. cbn. case_decide as Hd; [done|].
  destruct (first_po old new l); [done|]. intros _. constructor; [done|]. by apply IH.
Qed.

Lemma no_collision_redk s old new n a b : no_collision s old new -> sidx new <> old ->
  ks s !! n = Some (a, b) -> a <> b -> redirect old new a <> redirect old new b.
Proof.
  intros Hc Hne Hk Hab. unfold redirect. destruct a as [i x], b as [j y]. cbn [sidx scompl].
  destruct (decide (i = old)) as [->|Hi], (decide (j = old)) as [->|Hj].
  - intros E. apply Hab. f_equal. unfold sxor in E. injection E as E. by destruct (scompl new), x, y.
  - intros E. apply (proj1 (Hc n _ _ x Hk)). by rewrite E.
  - intros E. apply (proj2 (Hc n _ _ y Hk)). by rewrite E.
  - done.
Qed.

(* what a replacement does to the network *)
Record replaced (old : nat) (new : signal) (s s' : aig) : Prop := {
  rp_frozen : frozen s s';
  rp_gates : forall n, is_gate s n <-> is_gate s' n;
  rp_keys : forall n k, ks s !! n = Some k -> ks s' !! n = Some k \/ ks s' !! n = Some (redk old new k);
  rp_fanin : forall n m, fanin s' n m -> fanin s n m \/ (m = sidx new /\ fanin s n old);
  rp_outs : Forall2 (fun o o' => o' = o \/ o' = redirect old new o) (outs s) (outs s')
}.

Lemma replaced_valuation old new s s' env v : replaced old new s s' -> v old = sval v new -> valuation s env v -> valuation s' env v.
Proof.
  intros [Hf Hg Hk _ _] He [V0 V1 V2].
  assert (Hr : forall o, sval v (redirect old new o) = sval v o).
  { intros o. unfold redirect. case_decide as E; [|done]. rewrite sval_sxor, <- He, <- E. unfold sval. by destruct (scompl o). }
  destruct Hf as (Hi & _). split; [done|by rewrite Hi|].
  intros n a b E Hn Hab.
  assert (Hgs : is_gate s n) by (apply Hg; by exists a, b).
  destruct Hgs as (a0 & b0 & E0 & _ & Hab0). pose proof (V2 n a0 b0 E0 Hn Hab0) as Hv.
  destruct (Hk n _ E0) as [E1|E1]; rewrite E in E1; injection E1 as -> ->; [done|]. cbn. by rewrite !Hr.
Qed.
Lemma replaced_outs old new s s' v : replaced old new s s' -> v old = sval v new -> map (sval v) (outs s') = map (sval v) (outs s).
Proof.
  intros [_ _ _ _ Ho] He.
  assert (Hr : forall o, sval v (redirect old new o) = sval v o).
  { intros o. unfold redirect. case_decide as E; [|done]. rewrite sval_sxor, <- He, <- E. unfold sval. by destruct (scompl o). }
  induction Ho as [|o o' l l' Hoo _ IH]; [done|]. cbn. f_equal; [|exact IH]. destruct Hoo as [->| ->]; [done|apply Hr].
Qed.

Lemma replaced_po s old new l : network s -> valid s new -> first_po old new (pos s) = Some l ->
  let s' := set_outs s (l ++ drop (npo s) (outs s)) in replaced old new s s' /\ shape s'.
Proof.
  intros Hn Hv E s'. destruct (first_po_some _ _ _ _ E) as (l1 & po & l2 & Hl & Hpo & _ & ->).
  assert (Ho : outs s = (l1 ++ po :: l2) ++ drop (npo s) (outs s)) by (rewrite <- Hl; unfold pos; by rewrite take_drop).
  assert (Hred : sxor new (scompl po) = redirect old new po) by (unfold redirect; by rewrite decide_True).
  split.
  - split; cbn [ks set_outs].
    + unfold frozen. cbn. split_and!; try done. rewrite Ho at 2. by rewrite !app_length.
    + done.
    + by left.
    + by left.
    + cbn. rewrite Ho at 1. apply Forall2_app; [|apply Forall_Forall2_diag, Forall_forall; by left].
      apply Forall2_app; [apply Forall_Forall2_diag, Forall_forall; by left|]. constructor; [right; by rewrite Hred|].
      apply Forall_Forall2_diag, Forall_forall; by left.
  - destruct Hn as [H1 H2 H3 H4 H5 H6 H7 H8 H9]. split; cbn; try done.
    + rewrite Ho in H6. apply Forall_app in H6 as [[H61 [_ H62]%Forall_cons]%Forall_app H63].
      apply Forall_app. split; [|exact H63]. apply Forall_app. split; [exact H61|]. constructor; [|exact H62]. exact Hv.
    + rewrite Ho in H8. rewrite app_length in H8 |- *. rewrite app_length in H8 |- *. cbn in *. lia.
Qed.

Lemma redirect_valid s old new o : valid s new -> valid s o -> valid s (redirect old new o).
Proof. intros. unfold redirect. by case_decide. Qed.

Lemma replaced_rewire s old new F : network s -> valid s new -> sidx new <> old -> no_collision s old new ->
  Forall (fun f => is_gate s (sidx f)) F ->
  exists s', foldM (rewire old new) tt F s = Some (tt, s') /\ replaced old new s s' /\ shape s' /\
    (forall n, n ∈ map sidx F -> ~ fanin s' n old) /\ (forall n, n ∉ map sidx F -> ks s' !! n = ks s !! n) /\ outs s' = outs s.
Proof.
  intros Hnet Hv Hne Hc HF.
  assert (HF' : Forall (fun f => sidx f < size s) F).
  { eapply Forall_impl; [exact HF|]. intros f (a & b & E & _). by apply lookup_lt_Some in E. }
  destruct (rewire_fold old new F s Hne HF') as (s' & E & Hs' & Hl & Hk). exists s'. split; [done|].
  assert (Hks : forall n k', ks s' !! n = Some k' -> exists k, ks s !! n = Some k /\ k' = if decide (n ∈ map sidx F) then redk old new k else k).
  { intros n k' Hn. destruct (lookup_lt_is_Some_2 (ks s) n) as [k Hk']; [rewrite <- Hl; by eapply lookup_lt_Some|].
    exists k. split; [done|]. specialize (Hk n k Hk'). congruence. }
  assert (Hgate : forall n, n ∈ map sidx F -> is_gate s n).
  { intros n (f & -> & Hf)%elem_of_list_fmap. by apply (proj1 (Forall_forall _ _) HF). }
  assert (HG : forall n, is_gate s n <-> is_gate s' n).
  { intros n. split.
    - intros (a & b & Ek & Hn & Hab). specialize (Hk n _ Ek). destruct (decide (n ∈ map sidx F)).
      + exists (redirect old new a), (redirect old new b). split_and!; [done|done|]. by eapply no_collision_redk.
      + by exists a, b.
    - intros (a & b & Ek & Hn & Hab). destruct (Hks n _ Ek) as (k & Ek' & Hkk). destruct (decide (n ∈ map sidx F)) as [Hin|Hin].
      + by apply Hgate.
      + destruct k as [a' b']. injection Hkk as -> ->. by exists a', b'. }
  assert (Hfan : forall n m, fanin s' n m -> fanin s n m /\ m <> old \/ fanin s n m /\ n ∉ map sidx F \/ (m = sidx new /\ fanin s n old)).
  { intros n m (a & b & Ek & Hn & Hab & Hm). destruct (Hks n _ Ek) as ([a' b'] & Ek' & Hkk). destruct (decide (n ∈ map sidx F)) as [Hin|Hin].
    - injection Hkk as -> ->. destruct (Hgate n Hin) as (x & y & E1 & _ & Hxy).
      rewrite E1 in Ek'. injection Ek' as -> ->. cbn [fst snd] in *.
      assert (Hone : forall o, m = sidx (redirect old new o) -> (o = a' \/ o = b') -> fanin s n m /\ m <> old \/ (m = sidx new /\ fanin s n old)).
      { intros o Hmo Ho. unfold redirect in Hmo. destruct (decide (sidx o = old)) as [Eo|Eo].
        - right. split; [done|]. exists a', b'. split_and!; [done|done|done|]. destruct Ho as [->| ->]; [by left|by right].
        - left. split; [|by rewrite Hmo]. exists a', b'. split_and!; [done|done|done|]. destruct Ho as [->| ->]; [by left|by right]. }
      destruct Hm as [Hm|Hm]; destruct (Hone _ Hm) as [?|?]; auto.
    - injection Hkk as -> ->. right. left. split; [|done]. exists a', b'. done. }
  split; [|split; [|split; [|split]]].
  - split.
    + rewrite Hs'. unfold frozen, size. cbn. done.
    + exact HG.
    + intros n k Ek. specialize (Hk n k Ek). case_decide; auto.
    + intros n m Hm. destruct (Hfan n m Hm) as [[? _]|[[? _]|?]]; auto.
    + rewrite Hs'. cbn. apply Forall_Forall2_diag, Forall_forall. by left.
  - destruct Hnet as [H1 H2 H3 H4 H5 H6 H7 H8 H9]. split.
    + rewrite (Hk 0 _ H1). destruct (decide (0 ∈ map sidx F)) as [Hin|]; [|done]. by apply Hgate in Hin as (? & ? & ? & ? & _).
    + rewrite Hs'. cbn. intros k n Hn. destruct (H2 k n Hn) as [Hn0 Ekn]. split; [done|].
      rewrite Hs' in Hk. cbn in Hk. rewrite (Hk n _ Ekn). destruct (decide (n ∈ map sidx F)) as [Hin|]; [|done].
      apply Hgate in Hin as (x & y & Exy & _ & Hxy). rewrite Ekn in Exy. injection Exy as <- <-. done.
    + replace (ins s') with (ins s) by (by rewrite Hs'). intros n a En.
      destruct (Hks n _ En) as ([a' b'] & Ek' & Hkk). destruct (decide (n ∈ map sidx F)) as [Hin|_].
      { exfalso. apply Hgate, HG in Hin as (x & y & Exy & _ & Hxy). rewrite En in Exy. injection Exy as <- <-. done. }
      injection Hkk as <- <-. by eapply H3.
    + intros n m Hm. replace (size s') with (size s) by (unfold size; done).
      destruct (Hfan n m Hm) as [[? _]|[[? _]|[-> _]]]; eauto.
    + rewrite Hs'. cbn. eapply Forall_impl; [exact H6|]. intros f. unfold valid, size. cbn. by rewrite Hl.
    + by rewrite Hs'.
    + by rewrite Hs'.
    + rewrite Hs'. cbn. unfold size in *. cbn. congruence.
  - intros n Hin Hf. destruct (Hfan n old Hf) as [[_ ?]|[[_ ?]|[? _]]]; [done|done|by subst].
  - intros n Hni. destruct (ks s !! n) as [k|] eqn:Ek; [rewrite (Hk n k Ek); by rewrite decide_False|].
    apply lookup_ge_None. rewrite Hl. by apply lookup_ge_None.
  - by rewrite Hs'.
Qed.
