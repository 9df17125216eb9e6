(* Proofs about the deletion of unreferenced gates. *)
From Verif Require Import Base Aig AigSem AigHash AigProofs AigApi NetProofs CleanProofs Subst SubstProofs.

Lemma sum_change (f g : nat -> nat) l i d :
  NoDup l -> i ∈ l -> (forall j, j <> i -> f j = g j) -> f i = g i + d ->
  sum_list (map f l) = sum_list (map g l) + d.
Proof.
  induction l as [|x l IH]; [by intros _ ?%elem_of_nil|].
  intros [Hx Hnd]%NoDup_cons Hi Hj Hd. cbn. apply elem_of_cons in Hi as [<-|Hi].
  - rewrite Hd. replace (sum_list (map g l)) with (sum_list (map f l)); [lia|].
    f_equal. apply map_ext_in. intros y Hy%elem_of_list_In. apply Hj. by intros ->.
  - rewrite IH by done. rewrite Hj; [lia|]. by intros ->.
Qed.
Lemma sum_ext (f g : nat -> nat) l : (forall j, j ∈ l -> f j = g j) -> sum_list (map f l) = sum_list (map g l).
Proof. intros H. f_equal. apply map_ext_in. intros y Hy. apply H. by apply elem_of_list_In. Qed.
Lemma sum_zero (f : nat -> nat) l j : sum_list (map f l) = 0 -> j ∈ l -> f j = 0.
Proof.
  induction l as [|x l IH]; [by intros _ ?%elem_of_nil|]. cbn. intros H [<-|Hj]%elem_of_cons; [lia|].
  apply IH; [lia|done].
Qed.

Definition cnt (P : list nat) (n : nat) : nat := length (filter (fun m => m = n) P).
Lemma cnt_cons P m n : cnt (m :: P) n = (if decide (m = n) then 1 else 0) + cnt P n.
Proof. unfold cnt. rewrite filter_cons. by destruct (decide (m = n)). Qed.

Definition total (s : aig) (P : list nat) (n : nat) : nat := live_refs s n + cnt P n.

Definition nlive (s : aig) : nat :=
  sum_list (map (fun i => match is_dead s i with Some false => 1 | _ => 0 end) (seq 0 (size s))).

(* the bookkeeping while the references of P are still to be released *)
Record booked (s : aig) (P : list nat) : Prop := {
  bk_fo_len : length (fo s) = size s;
  bk_ph_len : length (ph s) = size s;
  bk_const : ks s !! 0 = Some (Sig 0 false, Sig 0 false);
  bk_out : Forall (valid s) (outs s);
  bk_valid : forall n m, fanin s n m -> m < size s;
  bk_tbl : tbl (ks s) (nx s) (hs s) (live_gate s);
  bk_uniq : forall n m k, live_gate s n -> live_gate s m -> ks s !! n = Some k -> ks s !! m = Some k -> n = m;
  bk_fo : forall n h, fo s !! n = Some h ->
    (h = (2 ^ 31)%N /\ is_gate s n /\ total s P n = 0) \/
    (h = N.of_nat (total s P n) /\ (h < 2 ^ 31)%N)
}.

Lemma testbit31_small h : (h < 2 ^ 31)%N -> N.testbit h 31 = false.
Proof.
  intros H. destruct (N.eq_dec h 0) as [->|Hh]; [done|]. apply N.bits_above_log2.
  apply N.log2_lt_pow2; lia.
Qed.
Lemma testbit31_top : N.testbit (2 ^ 31) 31 = true.
Proof. by vm_compute. Qed.

Lemma is_dead_lookup s n b : is_dead s n = Some b <-> exists h, fo s !! n = Some h /\ N.testbit h 31 = b.
Proof.
  unfold is_dead. split.
  - intros (h & Hh & [= <-])%bind_Some. eauto.
  - intros (h & -> & <-). done.
Qed.

Lemma booked_dead s P n : booked s P -> is_dead s n = Some true ->
  fo s !! n = Some (2 ^ 31)%N /\ is_gate s n /\ total s P n = 0.
Proof.
  intros HB (h & Hh & Hb)%is_dead_lookup. destruct (bk_fo _ _ HB n h Hh) as [(-> & ? & ?)|(_ & Hlt)]; [done|].
  rewrite testbit31_small in Hb; done.
Qed.
Lemma booked_live s P n : booked s P -> is_dead s n = Some false ->
  fo s !! n = Some (N.of_nat (total s P n)) /\ (N.of_nat (total s P n) < 2 ^ 31)%N.
Proof.
  intros HB (h & Hh & Hb)%is_dead_lookup. destruct (bk_fo _ _ HB n h Hh) as [(-> & ? & ?)|(-> & Hlt)]; [|done].
  rewrite testbit31_top in Hb; done.
Qed.
Lemma booked_dead_dec s P n : booked s P -> n < size s -> exists b, is_dead s n = Some b.
Proof.
  intros HB Hn. rewrite <- (bk_fo_len _ _ HB) in Hn. apply lookup_lt_is_Some in Hn as [h Hh].
  exists (N.testbit h 31). apply is_dead_lookup. eauto.
Qed.

(* ---- changes of the state ---- *)
Lemma live_refs_ext s s' n : ks s' = ks s -> outs s' = outs s ->
  (forall i, i < size s -> is_dead s' i = is_dead s i) -> live_refs s' n = live_refs s n.
Proof.
  intros Hk Ho Hd. unfold live_refs, size in *. rewrite Hk, Ho. f_equal. apply sum_ext.
  intros j Hj%elem_of_seq. rewrite Hd by lia. done.
Qed.

Lemma live_refs_kill s s' n m k : ks s' = ks s -> outs s' = outs s ->
  (forall i, i <> n -> is_dead s' i = is_dead s i) ->
  is_dead s n = Some false -> is_dead s' n = Some true -> ks s !! n = Some k ->
  live_refs s m = live_refs s' m + gate_refs m k.
Proof.
  intros Hk Ho Hd H1 H2 Hn. unfold live_refs, size. rewrite Hk, Ho.
  rewrite (sum_change _ (fun i => match ks s !! i, is_dead s' i with
     | Some k, Some false => gate_refs m k | _, _ => 0 end) (seq 0 (length (ks s))) n (gate_refs m k)).
  - lia.
  - apply NoDup_seq.
  - apply elem_of_seq. pose proof (lookup_lt_Some _ _ _ Hn). lia.
  - intros j Hj. by rewrite Hd.
  - by rewrite Hn, H1, H2.
Qed.

Lemma nlive_kill s s' n : ks s' = ks s ->
  (forall i, i <> n -> is_dead s' i = is_dead s i) ->
  is_dead s n = Some false -> is_dead s' n = Some true -> n < size s -> nlive s = nlive s' + 1.
Proof.
  intros Hk Hd H1 H2 Hn. unfold nlive, size in *. rewrite Hk. apply sum_change with (i := n).
  - apply NoDup_seq.
  - apply elem_of_seq. lia.
  - intros j Hj. by rewrite Hd.
  - by rewrite H1, H2.
Qed.
Lemma nlive_ext s s' : ks s' = ks s ->
  (forall i, is_dead s' i = is_dead s i) -> nlive s' = nlive s.
Proof. intros Hk Hd. unfold nlive, size. rewrite Hk. apply sum_ext. intros j _. by rewrite Hd. Qed.

Lemma is_gate_ext s s' n : ks s' = ks s -> is_gate s' n <-> is_gate s n.
Proof. unfold is_gate. by intros ->. Qed.
Lemma fanin_ext s s' n m : ks s' = ks s -> fanin s' n m <-> fanin s n m.
Proof. unfold fanin. by intros ->. Qed.

(* marking a live, unreferenced gate dead and unlinking it *)
Lemma kill_booked s P n k :
  booked s P -> live_gate s n -> total s P n = 0 -> ks s !! n = Some k ->
  exists s1, hash_erase k (set_fo s (<[n := (2 ^ 31)%N]> (fo s))) = Some s1 /\
    same_net s s1 /\ booked s1 (sidx k.1 :: sidx k.2 :: P) /\
    (forall i, i <> n -> is_dead s1 i = is_dead s i) /\ is_dead s1 n = Some true /\
    (forall m, total s1 (sidx k.1 :: sidx k.2 :: P) m = total s P m).
Proof.
  intros HB [Hg Hl] Ht Hk. set (s0 := set_fo s (<[n := (2 ^ 31)%N]> (fo s))).
  assert (Hnlt : n < length (fo s)) by (rewrite (bk_fo_len _ _ HB); by eapply lookup_lt_Some).
  destruct (hash_erase_spec s0 (live_gate s) k n) as (nl & hl & He & HT).
  { apply (bk_tbl _ _ HB). }
  { done. }
  { done. }
  { intros j Hj Hkj. by eapply (bk_uniq _ _ HB). }
  eexists. split; [exact He|]. set (s1 := Aig _ _ _ _ _ _ _ _ _ _ _).
  assert (Hd1 : forall i, i <> n -> is_dead s1 i = is_dead s i).
  { intros i Hi. unfold is_dead. cbn. by rewrite list_lookup_insert_ne. }
  assert (Hdn : is_dead s1 n = Some true).
  { apply is_dead_lookup. exists (2 ^ 31)%N. split; [cbn; by rewrite list_lookup_insert|apply testbit31_top]. }
  assert (Htot : forall m, total s1 (sidx k.1 :: sidx k.2 :: P) m = total s P m).
  { intros m. unfold total. rewrite (live_refs_kill s s1 n m k) by done. rewrite !cnt_cons.
    destruct Hg as (a & b & Hk' & _ & Hab). assert (k = (a, b)) as -> by congruence. unfold gate_refs, count_sig. cbn [fst snd].
    rewrite (decide_False (P := a = b)) by done. lia. }
  split; [|split; [|done]].
  { split; try done. cbn. by rewrite insert_length. }
  split.
  - cbn. rewrite insert_length. apply (bk_fo_len _ _ HB).
  - apply (bk_ph_len _ _ HB).
  - apply (bk_const _ _ HB).
  - apply (bk_out _ _ HB).
  - intros x y Hxy. apply (bk_valid _ _ HB x y). exact Hxy.
  - eapply tbl_iff; [exact HT|]. intros i. split.
    + intros [[Hgi Hli] Hi]. split; [exact Hgi|]. by rewrite Hd1.
    + intros [Hgi Hli]. assert (i <> n) by (intros ->; congruence). split; [|done].
      split; [exact Hgi|]. by rewrite <- Hd1.
  - intros x y kk [Hgx Hlx] [Hgy Hly] Hx Hy.
    assert (x <> n) by (intros ->; congruence). assert (y <> n) by (intros ->; congruence).
    eapply (bk_uniq _ _ HB); [split|split|exact Hx|exact Hy]; try done; by rewrite <- Hd1.
  - intros m h Hm. cbn in Hm. rewrite Htot.
    apply list_lookup_insert_Some in Hm as [(<- & <- & _)|(Hne & Hm)].
    + left. done.
    + apply (bk_fo _ _ HB) in Hm. exact Hm.
Qed.

(* releasing one reference *)
Lemma release_booked s P c : booked s (c :: P) -> c < size s ->
  exists s1, fanout_size s c <> Some 0%N /\ is_Some (fanout_size s c) /\
    decr_fanout c s = Some (N.of_nat (total s P c), s1) /\
    same_net s s1 /\ booked s1 P /\ (forall i, is_dead s1 i = is_dead s i) /\
    (forall m, total s1 P m = total s P m) /\ is_dead s c = Some false.
Proof.
  intros HB Hc. destruct (booked_dead_dec s _ c HB Hc) as [b Hb].
  assert (Htc : total s (c :: P) c = S (total s P c)).
  { unfold total. rewrite cnt_cons, decide_True by done. lia. }
  assert (b = false) as ->.
  { destruct b; [|done]. apply booked_dead with (P := c :: P) in Hb as (_ & _ & Hz); [|done]. lia. }
  destruct (booked_live s _ c HB Hb) as [Hfo Hlt]. rewrite Htc in Hfo, Hlt.
  pose proof (lookup_lt_Some _ _ _ Hfo) as Hcl.
  assert (Hdec : u32 (N.of_nat (S (total s P c)) + 2 ^ 32 - 1) = N.of_nat (total s P c)).
  { unfold u32. rewrite Nat2N.inj_succ. set (x := N.of_nat (total s P c)) in *.
    replace (N.succ x + 2 ^ 32 - 1)%N with (x + 1 * 2 ^ 32)%N by lia.
    rewrite N.mod_add by done. apply N.mod_small. rewrite Nat2N.inj_succ in Hlt. fold x in Hlt. lia. }
  set (s1 := set_fo s (<[c:=N.of_nat (total s P c)]> (fo s))).
  assert (Hdi : forall i, is_dead s1 i = is_dead s i).
  { intros j. destruct (decide (j = c)) as [->|Hj].
    - rewrite Hb. apply is_dead_lookup. eexists. split; [cbn; by rewrite list_lookup_insert|].
      apply testbit31_small. lia.
    - unfold is_dead. cbn. by rewrite list_lookup_insert_ne. }
  assert (Htm : forall m, total s1 P m = total s P m).
  { intros m. unfold total. f_equal. by apply live_refs_ext. }
  exists s1. split; [|split; [|split; [|split; [|split; [|split; [done|done]]]]]].
  - unfold fanout_size. rewrite Hfo. cbn. rewrite N.mod_small by lia. intros [= H]; lia.
  - unfold fanout_size. rewrite Hfo. cbn. eauto.
  - unfold decr_fanout. rewrite Hfo. cbn [mbind option_bind]. rewrite Hdec.
    rewrite N.mod_small; [done|]. rewrite Nat2N.inj_succ in Hlt. clear -Hlt. lia.
  - split; try done. cbn. by rewrite insert_length.
  - split.
    + cbn. rewrite insert_length. apply (bk_fo_len _ _ HB).
    + apply (bk_ph_len _ _ HB).
    + apply (bk_const _ _ HB).
    + apply (bk_out _ _ HB).
    + apply (bk_valid _ _ HB).
    + eapply tbl_iff; [apply (bk_tbl _ _ HB)|]. intros i. unfold live_gate. by rewrite Hdi.
    + intros x y kk [Hgx Hlx] [Hgy Hly] Hx Hy. rewrite Hdi in Hlx, Hly. by eapply (bk_uniq _ _ HB).
    + intros m h Hm. rewrite Htm. cbn in Hm.
      apply list_lookup_insert_Some in Hm as [(<- & <- & _)|(Hne & Hm)].
      * right. split; [done|]. lia.
      * apply (bk_fo _ _ HB) in Hm. unfold total in *. rewrite cnt_cons, decide_False in Hm by done. exact Hm.
Qed.

(* ---- the recursion ---- *)
(* relative to the state s0 before the deletion of root *)
Record killing (s0 : aig) (root : nat) (except : nat -> Prop) (s : aig) (P : list nat) : Prop := {
  kl_booked : booked s P;
  kl_net : same_net s0 s;
  kl_mono : forall m, dead s0 m -> dead s m;
  kl_cause : forall m, live_gate s0 m -> dead s m ->
    m = root \/ exists d, live_gate s0 d /\ dead s d /\ fanin s0 d m;
  kl_closed : forall d c, live_gate s0 d -> dead s d -> fanin s0 d c -> live_gate s0 c ->
    ~ except c -> dead s c \/ 0 < total s P c
}.

Definition nobody (n : nat) : Prop := False.

Lemma dead_not_false s n : dead s n -> is_dead s n = Some false -> False.
Proof. unfold dead. congruence. Qed.

Lemma take_out_correct s0 root fuel :
  (forall n s P, killing s0 root (eq n) s P -> n < size s -> total s P n = 0 -> 2 * nlive s + 2 <= fuel ->
     (is_gate s n -> is_dead s n = Some false -> n = root \/ exists d, live_gate s0 d /\ dead s d /\ fanin s0 d n) ->
     exists s', take_out fuel n s = Some (tt, s') /\ killing s0 root nobody s' P /\ nlive s' <= nlive s /\
       (is_gate s n -> dead s' n) /\ (forall m, dead s m -> dead s' m)) /\
  (forall c s P, killing s0 root nobody s (c :: P) -> c < size s -> 2 * nlive s + 3 <= fuel ->
     (exists d, live_gate s0 d /\ dead s d /\ fanin s0 d c) ->
     exists s', release fuel c s = Some (tt, s') /\ killing s0 root nobody s' P /\ nlive s' <= nlive s /\
       (forall m, dead s m -> dead s' m)).
Proof.
  induction fuel as [|fuel [IHt IHr]]; [split; intros; lia|]. split.
  - intros n s P HK Hn Ht Hf Hcause. cbn [take_out]. pose proof (kl_booked _ _ _ _ _ HK) as HB.
    pose proof (kl_net _ _ _ _ _ HK) as HN.
    assert (Hk : exists a b, ks s !! n = Some (a, b)).
    { apply lookup_lt_is_Some in Hn as [[a b] Hk]. eauto. }
    destruct Hk as (a & b & Hk). unfold is_ci. rewrite Hk. cbn [mbind option_bind fst snd].
    destruct (booked_dead_dec s P n HB Hn) as [bd Hd]. rewrite Hd. cbn [mbind option_bind fst snd].
    case_decide as Hc.
    { exists s. split; [done|]. split.
      - destruct HK as [K1 K2 K3 K4 K5]. split; try done. intros d c Hd1 Hd2 Hd3 Hd4 _.
        destruct (decide (n = c)) as [<-|Hne]; [|by apply (K5 d c)].
        destruct Hc as [->|[Hc|Hc]].
        + destruct Hd4 as [(? & ? & _ & ? & _) _]. done.
        + apply bool_decide_eq_true in Hc. subst b. destruct Hd4 as [(x & y & Hxy & _ & Hne) _].
          rewrite (sn_ks _ _ HN) in Hk. congruence.
        + left. unfold dead. congruence.
      - split; [done|]. split; [|done]. intros (x & y & Hxy & Hn0 & Hne). destruct Hc as [->|[Hc|Hc]]; [done| |].
        + apply bool_decide_eq_true in Hc. congruence.
        + unfold dead. congruence. }
    assert (Hn0 : n <> 0) by tauto.
    assert (Hab : a <> b) by (intros ->; apply Hc; right; left; by apply bool_decide_eq_true).
    assert (bd = false) as -> by (destruct bd; [tauto|done]).
    assert (Hg : is_gate s n) by (by exists a, b).
    destruct (kill_booked s P n (a, b) HB (conj Hg Hd) Ht Hk) as (s1 & He & Hs1 & HB1 & Hd1 & Hdn & Htot).
    rewrite He. cbn [mbind option_bind fst snd] in *.
    assert (Hm1 : forall m, dead s m -> dead s1 m).
    { intros m Hm. unfold dead. destruct (decide (m = n)) as [->|Hne]; [done|]. by rewrite Hd1. }
    assert (HL1 : nlive s = nlive s1 + 1) by (apply (nlive_kill s s1 n); [apply Hs1|done..]).
    assert (Hlive0 : live_gate s0 n).
    { split; [by eapply is_gate_ext; [symmetry; apply HN|]|].
      destruct (is_dead s0 n) as [[]|] eqn:E; [|done|].
      - apply (kl_mono _ _ _ _ _ HK) in E. unfold dead in E. congruence.
      - unfold is_dead in E, Hd. destruct (fo s0 !! n) eqn:E0; [done|]. apply lookup_ge_None in E0.
        apply bind_Some in Hd as (h & Hh & _). apply lookup_lt_Some in Hh. rewrite (sn_fo _ _ HN) in Hh. lia. }
    assert (Hfan : forall c, fanin s0 n c -> c = sidx a \/ c = sidx b).
    { intros c (x & y & Hxy & _ & _ & Hm). rewrite <- (sn_ks _ _ HN), Hk in Hxy. injection Hxy as <- <-. done. }
    assert (HK1 : killing s0 root nobody s1 (sidx a :: sidx b :: P)).
    { destruct HK as [K1 K2 K3 K4 K5]. split.
      - done.
      - by eapply same_net_trans.
      - auto.
      - intros m Hm Hdm. destruct (decide (m = n)) as [->|Hne].
        + destruct (Hcause Hg Hd) as [->|(d & ? & ? & ?)]; [by left|]. right. exists d. auto.
        + unfold dead in Hdm. rewrite Hd1 in Hdm by done. destruct (K4 m Hm Hdm) as [->|(d & ? & ? & ?)]; [by left|].
          right. exists d. auto.
      - intros d c Hd' Hdd Hdc Hc' _. destruct (decide (n = c)) as [<-|Hnc]; [by left|].
        destruct (decide (d = n)) as [->|Hne].
        + right. unfold total. rewrite !cnt_cons. destruct (Hfan c Hdc) as [->| ->]; repeat case_decide; congruence || lia.
        + unfold dead in Hdd. rewrite Hd1 in Hdd by done.
          destruct (K5 d c Hd' Hdd Hdc Hc' ltac:(done)) as [?|?]; [by left; apply Hm1|]. right. by rewrite Htot. }
    assert (Hva : sidx a < size s) by (apply (bk_valid _ _ HB n); exists a, b; auto).
    assert (Hvb : sidx b < size s) by (apply (bk_valid _ _ HB n); exists a, b; auto).
    assert (Hf0 : forall c, c = sidx a \/ c = sidx b -> fanin s0 n c).
    { intros c Hcc. exists a, b. rewrite <- (sn_ks _ _ HN). auto. }
    destruct (IHr (sidx a) s1 (sidx b :: P) HK1) as (s2 & -> & HK2 & HL2 & Hm2).
    { by rewrite (same_size _ _ Hs1). }
    { lia. }
    { exists n. split; [done|]. split; [done|]. apply Hf0. by left. }
    cbn [mbind option_bind].
    destruct (IHr (sidx b) s2 P HK2) as (s3 & E3 & HK3 & HL3 & Hm3).
    { rewrite (same_size s s2); [done|]. destruct HN, HK2 as [_ [] _ _ _]. split; congruence. }
    { lia. }
    { exists n. split; [done|]. split; [by apply Hm2|]. apply Hf0. by right. }
    exists s3. split; [exact E3|]. split; [done|]. split; [lia|]. split; [|auto].
    intros _. by apply Hm3, Hm2.
  - intros c s P HK Hc Hf Hcause. cbn [release]. pose proof (kl_booked _ _ _ _ _ HK) as HB.
    pose proof (kl_net _ _ _ _ _ HK) as HN.
    destruct (release_booked s P c HB Hc) as (s1 & Hz & [r Hr] & Hdec & Hs1 & HB1 & Hd1 & Htot & Hdc).
    rewrite Hr. cbn [mbind option_bind]. rewrite decide_False by congruence.
    rewrite Hdec. cbn [mbind option_bind].
    assert (HL1 : nlive s1 = nlive s) by (apply nlive_ext; [apply Hs1|done]).
    assert (Hm1 : forall m, dead s m <-> dead s1 m) by (intros m; unfold dead; by rewrite Hd1).
    assert (HK1 : killing s0 root (eq c) s1 P).
    { destruct HK as [K1 K2 K3 K4 K5]. split.
      - done.
      - by eapply same_net_trans.
      - intros m Hm. apply Hm1. auto.
      - intros m Hm Hdm. apply Hm1 in Hdm. destruct (K4 m Hm Hdm) as [->|(d & ? & ? & ?)]; [by left|].
        right. exists d. by rewrite <- Hm1.
      - intros d m Hd' Hdd Hdm Hm Hne. apply Hm1 in Hdd. rewrite <- Hm1, Htot.
        destruct (K5 d m Hd' Hdd Hdm Hm ltac:(unfold nobody; tauto)) as [?|Ht]; [by left|]. right.
        unfold total in *. rewrite cnt_cons, decide_False in Ht by done. done. }
    case_decide as Hzero.
    + destruct (IHt c s1 P HK1) as (s2 & E2 & HK2 & HL2 & _ & Hm2).
      { by rewrite (same_size _ _ Hs1). }
      { rewrite Htot. lia. }
      { lia. }
      { intros _ _. right. destruct Hcause as (d & ? & ? & ?). exists d. by rewrite <- Hm1. }
      exists s2. split; [exact E2|]. split; [done|]. split; [lia|]. intros m Hm. apply Hm2. by apply Hm1.
    + exists s1. split; [done|]. split; [|split; [lia|intros m; apply Hm1]].
      destruct HK1 as [K1 K2 K3 K4 K5]. split; try done.
      intros d m Hd' Hdd Hdm Hm _. destruct (decide (c = m)) as [<-|Hne]; [|by apply (K5 d m)].
      right. rewrite Htot. lia.
Qed.

Lemma nlive_size s : nlive s <= size s.
Proof.
  unfold nlive. rewrite <- (seq_length (size s) 0) at 2. induction (seq 0 (size s)) as [|x l IH]; cbn; [lia|].
  destruct (is_dead s x) as [[]|]; lia.
Qed.

Lemma take_out_node_correct s n : booked s [] -> live_gate s n -> live_refs s n = 0 ->
  exists s', take_out_node n s = Some (tt, s') /\ killing s n nobody s' [] /\ dead s' n.
Proof.
  intros HB Hl Hr. destruct (take_out_correct s n (2 * size s + 2)) as [H _].
  destruct (H n s []) as (s' & E & HK & _ & Hd & _).
  - split; try done.
    + intros m Hm Hd. destruct Hm as [_ Hm]. exfalso. by eapply dead_not_false.
    + intros d c [_ Hd] Hd'. exfalso. by eapply dead_not_false.
  - destruct Hl as [(a & b & Hk & _) _]. by eapply lookup_lt_Some.
  - unfold total, cnt. cbn. lia.
  - pose proof (nlive_size s). lia.
  - intros. by left.
  - exists s'. split; [exact E|]. split; [done|]. apply Hd, Hl.
Qed.

(* ---- creation calls keep the books ---- *)
Lemma sum_all_zero {A} (f : A -> nat) l : (forall x, x ∈ l -> f x = 0) -> sum_list (map f l) = 0.
Proof.
  induction l as [|x l IH]; intros H; cbn; [done|]. rewrite H by constructor.
  apply IH. intros y Hy. apply H. by constructor.
Qed.
Lemma sum_bound {A} (f : A -> nat) c l : (forall x, f x <= c) -> sum_list (map f l) <= c * length l.
Proof. intros H. induction l as [|x l IH]; cbn; [lia|]. specialize (H x). lia. Qed.

Lemma live_refs_bound s n : small s -> (N.of_nat (live_refs s n) < 2 ^ 31)%N.
Proof.
  intros Hs. unfold live_refs, small in *.
  assert (H1 : forall k, gate_refs n k <= 2).
  { intros k. unfold gate_refs, count_sig. repeat case_decide; lia. }
  pose proof (sum_bound (fun i => match ks s !! i, is_dead s i with
     | Some k, Some false => gate_refs n k | _, _ => 0 end) 2 (seq 0 (size s))) as B1.
  pose proof (sum_bound (count_sig n) 1 (outs s)) as B2. rewrite seq_length in B1.
  assert (H2 : forall x, count_sig n x <= 1) by (intros x; unfold count_sig; case_decide; lia).
  specialize (B2 H2). feed specialize B1.
  { intros i. destruct (ks s !! i), (is_dead s i) as [[]|]; auto; lia. }
  lia.
Qed.

Lemma live_refs_range s n : booked s [] -> size s <= n -> live_refs s n = 0.
Proof.
  intros HB Hn. unfold live_refs. rewrite !sum_all_zero; [done| |].
  - intros f Hf. pose proof (bk_out _ _ HB) as Ho. rewrite Forall_forall in Ho. specialize (Ho f Hf).
    unfold valid in Ho. unfold count_sig. rewrite decide_False; [done|lia].
  - intros i _. destruct (ks s !! i) as [[a b]|] eqn:Hk; [|done].
    destruct (is_dead s i) as [[]|]; [done| |done]. unfold gate_refs. cbn.
    case_decide as Hab; [done|].
    destruct (decide (i = 0)) as [->|Hi0]; [rewrite (bk_const _ _ HB) in Hk; congruence|].
    assert (sidx a < size s) by (apply (bk_valid _ _ HB i); exists a, b; auto).
    assert (sidx b < size s) by (apply (bk_valid _ _ HB i); exists a, b; auto).
    unfold count_sig. rewrite !decide_False by lia. done.
Qed.

Lemma live_refs_push s s' k n : ks s' = ks s ++ [k] -> outs s' = outs s ->
  (forall i, i < size s -> is_dead s' i = is_dead s i) -> is_dead s' (size s) = Some false ->
  live_refs s' n = live_refs s n + gate_refs n k.
Proof.
  intros Hk Ho Hd Hn. unfold live_refs. rewrite Ho. unfold size in *. rewrite Hk, app_length.
  cbn [length]. rewrite Nat.add_1_r, seq_S, map_app, sum_list_app. cbn.
  rewrite lookup_snoc_eq, Hn.
  rewrite (sum_ext _ (fun i => match ks s !! i, is_dead s i with
     | Some k, Some false => gate_refs n k | _, _ => 0 end) (seq 0 (length (ks s)))); [lia|].
  intros i Hi%elem_of_seq. rewrite Hd by lia. rewrite lookup_app_l by lia. done.
Qed.

Lemma live_refs_out s s' f n : ks s' = ks s -> outs s' = outs s ++ [f] ->
  (forall i, is_dead s' i = is_dead s i) ->
  live_refs s' n = live_refs s n + count_sig n f.
Proof.
  intros Hk Ho Hd. unfold live_refs, size. rewrite Hk, Ho, map_app, sum_list_app. cbn.
  rewrite (sum_ext _ (fun i => match ks s !! i, is_dead s i with
     | Some k, Some false => gate_refs n k | _, _ => 0 end) (seq 0 (length (ks s)))); [lia|].
  intros i _. by rewrite Hd.
Qed.

Lemma total_nil s n : total s [] n = live_refs s n.
Proof. unfold total, cnt. cbn. lia. Qed.

Lemma booked_init nb : 0 < nb -> booked (aig_init_n nb) [].
Proof.
  intros Hnb. split; try done.
  - constructor.
  - intros n m (a & b & Hk & Hn & Hab & _). destruct n; [done|]. by destruct n.
  - eapply tbl_iff; [apply (tbl_empty [(Sig 0 false, Sig 0 false)] [0] nb); [done|done]|].
    intros i. split; [done|]. intros [(a & b & Hk & Hn & _) _]. destruct i; [done|]. by destruct i.
  - intros n m k [(a & b & Hk & Hn & _) _]. destruct n; [done|]. by destruct n.
  - intros n h Hn. right. destruct n; [|by destruct n]. by injection Hn as <-.
Qed.

Lemma is_dead_push s x i : i < length (fo s) -> N.testbit x 31 = false ->
  forall s', fo s' = fo s ++ [x] -> is_dead s' i = is_dead s i /\ is_dead s' (length (fo s)) = Some false.
Proof.
  intros Hi Hx s' E. unfold is_dead. rewrite E, lookup_snoc_eq. cbn. rewrite Hx.
  by rewrite lookup_app_l.
Qed.

Lemma booked_ci s pi : booked s [] -> booked (add_ci pi s) [].
Proof.
  intros HB. set (d := sig_of_data (length (ins s))). set (s' := add_ci pi s).
  assert (Hks : ks s' = ks s ++ [(d, d)]) by done.
  assert (Hsz : size s' = S (size s)) by (unfold size; rewrite Hks, app_length; cbn; lia).
  assert (Hfo : fo s' = fo s ++ [0%N]) by done.
  assert (Hpos : 0 < size s) by (pose proof (lookup_lt_Some _ _ _ (bk_const _ _ HB)); done).
  assert (Hd : forall i, i < size s -> is_dead s' i = is_dead s i).
  { intros i Hi. rewrite <- (bk_fo_len _ _ HB) in Hi. by destruct (is_dead_push s 0%N i Hi eq_refl s' Hfo). }
  assert (Hdn : is_dead s' (size s) = Some false).
  { rewrite <- (bk_fo_len _ _ HB). unfold is_dead. by rewrite Hfo, lookup_snoc_eq. }
  assert (Hg : forall i, live_gate s' i <-> live_gate s i).
  { intros i. unfold live_gate, is_gate. rewrite Hks. split.
    - intros [(a & b & Hk & Hi0 & Hab) Hl]. apply lookup_snoc in Hk as [Hk|[_ [= -> ->]]]; [|done].
      split; [by exists a, b|]. rewrite <- Hd; [done|]. by eapply lookup_lt_Some.
    - intros [(a & b & Hk & Hi0 & Hab) Hl]. split; [exists a, b; split; [by apply lookup_app_l_Some|done]|].
      rewrite Hd; [done|]. by eapply lookup_lt_Some. }
  assert (Hr : forall n, live_refs s' n = live_refs s n).
  { intros n. rewrite (live_refs_push s s' (d, d) n) by done. unfold gate_refs. cbn. rewrite decide_True by done. lia. }
  split.
  - rewrite Hfo, app_length, Hsz, (bk_fo_len _ _ HB). cbn. lia.
  - change (length (ph s ++ [false]) = size s'). rewrite app_length, Hsz, (bk_ph_len _ _ HB). cbn. lia.
  - rewrite Hks. apply lookup_app_l_Some, (bk_const _ _ HB).
  - eapply Forall_impl; [exact (bk_out _ _ HB)|]. unfold valid. rewrite Hsz. lia.
  - intros n m (a & b & Hk & Hn0 & Hab & Hm). rewrite Hks in Hk.
    apply lookup_snoc in Hk as [Hk|[_ [= -> ->]]]; [|done]. rewrite Hsz.
    assert (m < size s); [|lia]. apply (bk_valid _ _ HB n). exists a, b. done.
  - eapply tbl_iff; [apply (tbl_app _ _ _ _ (d, d) (bk_tbl _ _ HB))|]. intros i. by rewrite Hg.
  - intros n m k Hn Hm Hkn Hkm. rewrite Hg in Hn, Hm. rewrite Hks in Hkn, Hkm.
    assert (forall x, live_gate s x -> (ks s ++ [(d, d)]) !! x = Some k -> ks s !! x = Some k) as Hx.
    { intros x [(a & b & Hk & _) _] E. rewrite lookup_app_l in E; [done|]. by eapply lookup_lt_Some. }
    eapply (bk_uniq _ _ HB); eauto.
  - intros n h Hn. rewrite Hfo in Hn. rewrite total_nil, Hr.
    apply lookup_snoc in Hn as [Hn|[-> ->]].
    + apply (bk_fo _ _ HB) in Hn. rewrite total_nil in Hn. destruct Hn as [(? & (a & b & Hk & ?) & ?)|?]; [left|by right].
      split; [done|]. split; [|done]. exists a, b. split; [by rewrite Hks; apply lookup_app_l_Some|done].
    + right. rewrite (bk_fo_len _ _ HB), live_refs_range by done. done.
Qed.

Lemma u32_incr x : (x + 1 < 2 ^ 31)%N -> u32 (x + 1) = (x + 1)%N.
Proof. intros H. unfold u32. apply N.mod_small. lia. Qed.

Lemma booked_co s f po r h : booked s [] -> usable s f -> fo s !! sidx f = Some h ->
  let s' := Aig (ks s) (nx s) (<[sidx f := u32 (h + 1)]> (fo s)) (ph s) (ins s) (outs s ++ [f]) (npi s)
          po r (hs s) (ne s) in
  small s' -> booked s' [].
Proof.
  intros HB [Hv Hl] Hh s' Hsm.
  destruct (booked_live s [] _ HB Hl) as [Hf Hlt]. rewrite total_nil in Hf, Hlt.
  rewrite Hf in Hh. injection Hh as <-.
  (* the counter of f after the call is its exact number of references *)
  assert (Hcase : forall i, i <> sidx f -> is_dead s' i = is_dead s i).
  { intros i Hi. unfold is_dead. cbn. by rewrite list_lookup_insert_ne. }
  assert (Hbound : (N.of_nat (S (live_refs s (sidx f))) < 2 ^ 31)%N).
  { set (s1 := set_outs s (outs s ++ [f])).
    assert (E : live_refs s1 (sidx f) = S (live_refs s (sidx f))).
    { rewrite (live_refs_out s s1 f) by done. unfold count_sig. rewrite decide_True by done. lia. }
    rewrite <- E. apply live_refs_bound. exact Hsm. }
  assert (Hu : u32 (N.of_nat (live_refs s (sidx f)) + 1) = N.of_nat (S (live_refs s (sidx f)))).
  { rewrite u32_incr; lia. }
  assert (Hd : forall i, is_dead s' i = is_dead s i).
  { intros i. destruct (decide (i = sidx f)) as [->|Hi]; [|auto]. rewrite Hl. apply is_dead_lookup.
    eexists. split; [cbn; rewrite list_lookup_insert; [done|by eapply lookup_lt_Some]|].
    rewrite Hu. by apply testbit31_small. }
  assert (Hr : forall n, live_refs s' n = live_refs s n + count_sig n f) by (intros n; by apply live_refs_out).
  assert (Hg : forall i, live_gate s' i <-> live_gate s i) by (intros i; unfold live_gate; by rewrite Hd).
  split; try apply HB.
  - cbn. rewrite insert_length. apply HB.
  - apply Forall_app. split; [exact (bk_out _ _ HB)|]. by repeat constructor.
  - eapply tbl_iff; [apply HB|]. intros i. by rewrite Hg.
  - intros n m k Hn Hm. rewrite Hg in Hn, Hm. by apply (bk_uniq _ _ HB).
  - intros n h Hn. rewrite total_nil, Hr. cbn in Hn.
    apply list_lookup_insert_Some in Hn as [(<- & <- & _)|(Hne & Hn)].
    + right. rewrite Hu. unfold count_sig. rewrite decide_True by done. split; lia.
    + unfold count_sig. rewrite decide_False by done. rewrite Nat.add_0_r.
      apply (bk_fo _ _ HB) in Hn. by rewrite total_nil in Hn.
Qed.

Lemma booked_new_and s a b f s' : booked s [] -> usable s a -> usable s b ->
  sidx a <> sidx b -> 
  (forall m, live_gate s m -> ks s !! m <> Some (a, b)) ->
  new_and a b s = Some (f, s') -> small s' ->
  booked s' [] /\ is_dead s' (sidx f) = Some false /\ ks s' = ks s ++ [(a, b)].
Proof.
  intros HB [Hva Hla] [Hvb Hlb] Hne Hno H Hsm. unfold new_and in H.
  assert (Hab : a <> b) by (intros ->; done).
  assert (Hpos : 0 < size s) by (pose proof (lookup_lt_Some _ _ _ (bk_const _ _ HB)); done).
  set (s0 := push_node (a, b) s) in *.
  destruct (hash_insert_spec s0 (live_gate s) (a, b) (size s)) as (nl & hl & Hins & HT).
  { apply (tbl_app _ _ _ _ (a, b) (bk_tbl _ _ HB)). }
  { apply lookup_snoc_eq. }
  { lia. }
  { intros [(x & y & Hk & _) _]. apply lookup_lt_Some in Hk. unfold size in Hk. lia. }
  rewrite Hins in H. cbn [mbind option_bind ph fo] in H.
  apply bind_Some in H as (pa & Hpa & (pb & Hpb & H)%bind_Some).
  unfold incr_fanout in H. cbn [fo set_fo] in H.
  destruct (booked_live s [] _ HB Hla) as [Hfa Hlta]. destruct (booked_live s [] _ HB Hlb) as [Hfb Hltb].
  rewrite total_nil in *.
  assert (Hfa' : fo s0 !! sidx a = Some (N.of_nat (live_refs s (sidx a)))) by (by apply lookup_app_l_Some).
  assert (Hfb' : fo s0 !! sidx b = Some (N.of_nat (live_refs s (sidx b)))) by (by apply lookup_app_l_Some).
  rewrite Hfa' in H. cbn [mbind option_bind fo set_fo] in H.
  rewrite list_lookup_insert_ne, Hfb' in H by done. cbn [mbind option_bind] in H.
  injection H as <- <-. set (s' := set_fo _ _) in *.
  assert (Hks : ks s' = ks s ++ [(a, b)]) by done.
  assert (Hsz : size s' = S (size s)) by (unfold size; rewrite Hks, app_length; cbn; lia).
  assert (Hl0 : length (fo s0) = S (size s)) by (cbn; rewrite app_length, (bk_fo_len _ _ HB); cbn; lia).
  unfold valid in Hva, Hvb.
  (* counters after the call *)
  set (s1 := Aig (ks s') (nx s) (fo s0) (ph s) (ins s) (outs s) (npi s) (npo s) (lat s) (hs s) (ne s)).
  assert (Hd1 : forall i, i < size s -> is_dead s1 i = is_dead s i).
  { intros i Hi. rewrite <- (bk_fo_len _ _ HB) in Hi. by destruct (is_dead_push s 0%N i Hi eq_refl s1 eq_refl). }
  assert (Hd1n : is_dead s1 (size s) = Some false).
  { rewrite <- (bk_fo_len _ _ HB). unfold is_dead. cbn. by rewrite lookup_snoc_eq. }
  assert (Hr1 : forall n, live_refs s1 n = live_refs s n + gate_refs n (a, b)) by (intros n; by apply live_refs_push).
  assert (Hgr : forall n, gate_refs n (a, b) = count_sig n a + count_sig n b).
  { intros n. unfold gate_refs. cbn. by rewrite decide_False. }
  assert (Hba : (N.of_nat (S (live_refs s (sidx a))) < 2 ^ 31)%N).
  { pose proof (live_refs_bound s1 (sidx a) Hsm) as B. rewrite Hr1, Hgr in B. unfold count_sig in B.
    rewrite decide_True, decide_False in B by done. lia. }
  assert (Hbb : (N.of_nat (S (live_refs s (sidx b))) < 2 ^ 31)%N).
  { pose proof (live_refs_bound s1 (sidx b) Hsm) as B. rewrite Hr1, Hgr in B. unfold count_sig in B.
    rewrite decide_False, decide_True in B by done. lia. }
  assert (Hua : u32 (N.of_nat (live_refs s (sidx a)) + 1) = N.of_nat (S (live_refs s (sidx a)))) by (rewrite u32_incr; lia).
  assert (Hub : u32 (N.of_nat (live_refs s (sidx b)) + 1) = N.of_nat (S (live_refs s (sidx b)))) by (rewrite u32_incr; lia).
  assert (Hfo : fo s' = <[sidx b := N.of_nat (S (live_refs s (sidx b)))]>
                        (<[sidx a := N.of_nat (S (live_refs s (sidx a)))]> (fo s0))).
  { unfold s'. cbn [fo set_fo]. by rewrite Hua, Hub. }
  assert (Hd : forall i, is_dead s' i = is_dead s1 i).
  { intros i. unfold is_dead at 1. rewrite Hfo.
    destruct (decide (i = sidx b)) as [->|Hib].
    { rewrite list_lookup_insert by (rewrite insert_length; lia). cbn [mbind option_bind].
      rewrite testbit31_small by exact Hbb. rewrite Hd1 by assumption. symmetry. assumption. }
    rewrite list_lookup_insert_ne by done. destruct (decide (i = sidx a)) as [->|Hia].
    { rewrite list_lookup_insert by lia. cbn [mbind option_bind].
      rewrite testbit31_small by exact Hba. rewrite Hd1 by assumption. symmetry. assumption. }
    by rewrite list_lookup_insert_ne. }
  assert (Hr : forall n, live_refs s' n = live_refs s n + (count_sig n a + count_sig n b)).
  { intros n. rewrite <- Hgr, <- Hr1. by apply live_refs_ext. }
  assert (Hg : forall i, live_gate s' i <-> i = size s \/ live_gate s i).
  { intros i. unfold live_gate, is_gate. rewrite Hks, Hd. split.
    - intros [(x & y & Hk & Hi0 & Hxy) Hl]. apply lookup_snoc in Hk as [Hk|[-> [= -> ->]]]; [|by left].
      right. split; [by exists x, y|]. rewrite <- Hd1; [done|]. by eapply lookup_lt_Some.
    - intros [->|[(x & y & Hk & Hi0 & Hxy) Hl]].
      + split; [|done]. exists a, b. split; [apply lookup_snoc_eq|]. split; [lia|done].
      + split; [exists x, y; split; [by apply lookup_app_l_Some|done]|].
        rewrite Hd1; [done|]. by eapply lookup_lt_Some. }
  split; [|split; [cbn [sidx]; rewrite Hd; exact Hd1n|exact Hks]]. split.
  - rewrite Hfo, !insert_length, Hl0, Hsz. done.
  - change (length (<[size s := xorb pa (scompl a) && xorb pb (scompl b)]> (ph s ++ [false])) = size s').
    rewrite insert_length, app_length, Hsz, (bk_ph_len _ _ HB). cbn. lia.
  - rewrite Hks. apply lookup_app_l_Some, (bk_const _ _ HB).
  - eapply Forall_impl; [exact (bk_out _ _ HB)|]. unfold valid. rewrite Hsz. lia.
  - intros n m (x & y & Hk & Hn0 & Hxy & Hm). rewrite Hks in Hk. rewrite Hsz.
    apply lookup_snoc in Hk as [Hk|[_ [= -> ->]]].
    + assert (m < size s); [|lia]. apply (bk_valid _ _ HB n). exists x, y. done.
    + destruct Hm as [-> | ->]; lia.
  - eapply tbl_iff; [exact HT|]. intros i. by rewrite Hg.
  - intros n m k Hn Hm Hkn Hkm. rewrite Hks in Hkn, Hkm. rewrite Hg in Hn, Hm.
    assert (Hx : forall x, live_gate s x -> (ks s ++ [(a, b)]) !! x = Some k -> ks s !! x = Some k).
    { intros x [(c & d & Hk & _) _] E. rewrite lookup_app_l in E; [done|]. by eapply lookup_lt_Some. }
    assert (Hlast : (ks s ++ [(a, b)]) !! size s = Some (a, b)) by apply lookup_snoc_eq.
    destruct Hn as [->|Hn], Hm as [->|Hm].
    + done.
    + exfalso. rewrite Hlast in Hkn. injection Hkn as <-. by eapply (Hno m), Hx.
    + exfalso. rewrite Hlast in Hkm. injection Hkm as <-. by eapply (Hno n), Hx.
    + eapply (bk_uniq _ _ HB); eauto.
  - intros n h Hn. rewrite Hfo in Hn. rewrite total_nil, Hr.
    apply list_lookup_insert_Some in Hn as [(<- & <- & _)|(Hnb & Hn)].
    { right. unfold count_sig. rewrite (decide_False (P := sidx a = sidx b)), decide_True by done. split; lia. }
    apply list_lookup_insert_Some in Hn as [(<- & <- & _)|(Hna & Hn)].
    { right. unfold count_sig. rewrite decide_True, decide_False by done. split; lia. }
    unfold count_sig. rewrite !decide_False by done. rewrite Nat.add_0_r.
    apply lookup_snoc in Hn as [Hn|[-> ->]].
    + apply (bk_fo _ _ HB) in Hn. rewrite total_nil in Hn. destruct Hn as [(? & (x & y & Hk & ?) & ?)|?]; [left|by right].
      split; [done|]. split; [|done]. exists x, y. split; [by rewrite Hks; apply lookup_app_l_Some|done].
    + right. rewrite (bk_fo_len _ _ HB), live_refs_range by done. done.
Qed.

Lemma booked_find s a b : booked s [] -> a <> b ->
  exists r, hash_find (a, b) s = Some r /\
    ((r <> 0 /\ live_gate s r /\ ks s !! r = Some (a, b)) \/
     (r = 0 /\ forall m, live_gate s m -> ks s !! m <> Some (a, b))).
Proof.
  intros HB Hab.
  destruct (tbl_find _ _ _ _ (a, b) s (bk_tbl _ _ HB) eq_refl eq_refl eq_refl) as (r & Hr & Hc). eauto.
Qed.

Lemma usable_const s c : booked s [] -> usable s (get_constant c).
Proof.
  intros HB. assert (Hpos : 0 < size s) by (pose proof (lookup_lt_Some _ _ _ (bk_const _ _ HB)); done).
  split; [done|]. cbn. destruct (booked_dead_dec s [] 0 HB Hpos) as [[] Hd]; [|done].
  apply (booked_dead s []) in Hd as (_ & (x & y & _ & ? & _) & _); done.
Qed.

Lemma booked_create_and s a b f s' : booked s [] -> usable s a -> usable s b ->
  create_and a b s = Some (f, s') -> small s' -> booked s' [] /\ is_dead s' (sidx f) = Some false /\
    (ks s' = ks s \/ exists c d, valid s c /\ valid s d /\ ks s' = ks s ++ [(c, d)]).
Proof.
  intros HB Ha Hb H Hsm. unfold create_and in H.
  assert (Hu : usable s (order a b).1 /\ usable s (order a b).2) by (unfold order; case_decide; done).
  destruct (order a b) as [c d]. cbn in Hu. destruct Hu as [Hc Hd].
  case_decide as H1.
  { injection H as <- <-. split; [done|]. split; [|by left]. case_decide; [apply Hc|by apply (usable_const s false)]. }
  case_decide as H2.
  { injection H as <- <-. split; [done|]. split; [|by left]. destruct (scompl c); [apply Hd|by apply (usable_const s false)]. }
  destruct (booked_find s c d HB) as (r & Hr & Hcase); [intros ->; done|].
  rewrite Hr in H. cbn [mbind option_bind] in H.
  destruct Hcase as [(Hr0 & Hlr & _)|(-> & Hno)].
  - rewrite decide_False in H by done. injection H as <- <-. split; [done|]. split; [apply Hlr|by left].
  - rewrite decide_True in H by done.
    destruct (booked_new_and s c d f s' HB Hc Hd H1 Hno H Hsm) as (B1 & B2 & B3). split; [done|]. split; [done|].
    right. exists c, d. split; [apply Hc|]. split; [apply Hd|done].
Qed.

Lemma pruned_booked s : pruned s -> booked s [].
Proof.
  induction 1 as [nb Hnb|s f s' _ IH E _|s f s' _ IH E _|s f k s' _ IH [Hv Hl] E Hsm|s f r k s' _ IH [Hv Hl] E Hsm
    |s a b f s' _ IH Ha Hb E Hsm|s n s' _ IH Hl Hr E].
  - by apply booked_init.
  - injection E as <- <-. by apply (booked_ci s true).
  - injection E as <- <-. by apply (booked_ci s false).
  - unfold create_po, incr_fanout in E. apply bind_Some in E as (s1 & (h & Hh & [= <-])%bind_Some & [= <- <-]).
    cbn in *. by eapply booked_co.
  - unfold create_ri, incr_fanout in E. apply bind_Some in E as (s1 & (h & Hh & [= <-])%bind_Some & [= <- <-]).
    cbn in *. by eapply booked_co.
  - exact (proj1 (booked_create_and s a b f s' IH Ha Hb E Hsm)).
  - destruct (take_out_node_correct s n IH Hl Hr) as (s1 & E1 & HK & _).
    rewrite E in E1. injection E1 as <-. by apply (kl_booked _ _ _ _ _ HK).
Qed.

(* gates are created after their fanins *)
Lemma order_push s k c d : (forall n m, fanin s n m -> m < n) ->
  k = (c, d) -> sidx c < size s -> sidx d < size s ->
  forall s', ks s' = ks s ++ [k] -> forall n m, fanin s' n m -> m < n.
Proof.
  intros IH -> Hc Hd s' E n m (x & y & Hk & Hn & Hxy & Hm). rewrite E in Hk.
  apply lookup_snoc in Hk as [Hk|[-> [= -> ->]]].
  - apply IH. by exists x, y.
  - unfold size in *. destruct Hm as [-> | ->]; done.
Qed.
Lemma pruned_order s : pruned s -> forall n m, fanin s n m -> m < n.
Proof.
  induction 1 as [nb Hnb|s f s' _ IH E _|s f s' _ IH E _|s f k s' _ IH _ E _|s f r k s' _ IH _ E _
    |s a b f s' HP IH Ha Hb E Hsm|s n s' HP IH Hl Hr E].
  - intros n m (a & b & Hk & Hn & Hab & _). destruct n; [done|]. by destruct n.
  - injection E as <- <-. intros n m (x & y & Hk & Hn & Hxy & Hm). apply lookup_snoc in Hk as [Hk|[_ [= -> ->]]]; [|done].
    apply IH. by exists x, y.
  - injection E as <- <-. intros n m (x & y & Hk & Hn & Hxy & Hm). apply lookup_snoc in Hk as [Hk|[_ [= -> ->]]]; [|done].
    apply IH. by exists x, y.
  - unfold create_po, incr_fanout in E. apply bind_Some in E as (s1 & (h & Hh & [= <-])%bind_Some & [= <- <-]). done.
  - unfold create_ri, incr_fanout in E. apply bind_Some in E as (s1 & (h & Hh & [= <-])%bind_Some & [= <- <-]). done.
  - apply pruned_booked in HP. destruct (booked_create_and s a b f s' HP Ha Hb E Hsm) as (_ & _ & [Ek|(c & d & Hc & Hd & Ek)]).
    + intros n m Hf. apply IH. by apply (fanin_ext s s').
    + exact (order_push s (c, d) c d IH eq_refl Hc Hd s' Ek).
  - apply pruned_booked in HP. destruct (take_out_node_correct s n HP Hl Hr) as (s1 & E1 & HK & _).
    rewrite E in E1. injection E1 as <-. intros x y Hf. apply IH.
    by apply (fanin_ext s s' _ _ (sn_ks _ _ (kl_net _ _ _ _ _ HK))).
Qed.
