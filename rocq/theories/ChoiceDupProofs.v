From Verif Require Import Base Aig AigSem AigHash AigProofs AigApi AigReach NetProofs Clean Cnf CnfProofs Choice ChoiceProofs
  ChoiceSat NodeRewritingProofs ChoiceCompute ChoiceComputeProofs ChoiceDeriveProofs.

(* ---- duplication in depth-first order ---- *)
Section dup.
Context (t : cnet) (k : nat).
Context (Ht : chist t) (Hti : ins (cb t) = seq 1 k) (Htl : size (cb t) <= length (equivs t)).
Context (Hta : forall n r, link t n r -> alike (cb t) n r).

Definition mapped (m : nmap) (n : nat) : Prop := exists f, m !! n = Some (Some f).

Record dupinv (c : cnet) (m : nmap) : Prop := {
  du_reach : reachable (cb c);
  du_ins : ins (cb c) = seq 1 k;
  du_npi : npi (cb c) = k;
  du_le : length (equivs c) = size (cb t);
  du_lm : length m = size (cb t);
  du_cnt : size (cb c) <= cnt m;
  du_map : forall n f, m !! n = Some (Some f) -> mirrors (cb t) (cb c) n f;
  du_src : forall n, n = 0 \/ n ∈ ins (cb t) -> mapped m n;
  du_links : forall a b, link c a b -> b < a /\ alike (cb c) a b
}.

Lemma dup_reach : reachable (cb t).
Proof using Ht. apply ci_reach, chist_cinv, Ht. Qed.
Lemma dup_net : network (cb t).
Proof using Ht. apply wf_network, reachable_wf, dup_reach. Qed.
Lemma dup_unmapped c m n : dupinv c m -> m !! n = Some None -> is_gate (cb t) n.
Proof using Ht.
  intros I E. assert (Hn : n < size (cb t)) by (apply lookup_lt_Some in E; rewrite (du_lm _ _ I) in E; done).
  destruct (net_cases _ n dup_net Hn) as [H0|[[i Hi]|(H0 & a & b & Ek & Hab)]].
  - destruct (du_src _ _ I n) as [f E']; [by left|]. congruence.
  - destruct (du_src _ _ I n) as [f E']; [right; by eapply elem_of_list_lookup_2|]. congruence.
  - by exists a, b.
Qed.

(* a new gate, possibly with a link *)
Lemma dup_gate c m n a b fa fb (ne : option (nat * signal)) : dupinv c m -> m !! n = Some None -> ks (cb t) !! n = Some (a, b) ->
  m !! sidx a = Some (Some fa) -> m !! sidx b = Some (Some fb) ->
  match ne with Some (x, g) => link t n x /\ m !! x = Some (Some g) | None => True end ->
  exists f c1 c2, base_op (create_and (sxor fa (scompl a)) (sxor fb (scompl b))) c = Some (f, c1) /\
    match ne with
    | Some (_, g) => if decide (sidx g < sidx f) then '(_, c) ← set_equiv (sidx f) (sidx g) c1; Some c else Some c1
    | None => Some c1
    end = Some c2 /\ dupinv c2 (<[n := Some f]> m) /\ ext (cb c) (cb c2).
Proof using All.
  intros I En Ek Ea Eb Hne. pose proof (dup_unmapped c m n I En) as Hg. pose proof (du_reach _ _ I) as R.
  pose proof (du_map _ _ I _ _ Ea) as Ma. pose proof (du_map _ _ I _ _ Eb) as Mb.
  pose proof (create_and_rs (cb c) (sxor fa (scompl a)) (sxor fb (scompl b)) R (proj1 Ma) (proj1 Mb)) as H.
  apply wp_elim in H as (f & t' & E & Hmk & Hsz).
  pose proof (mirrors_and (cb t) (cb c) n a b fa fb f t' Ma Mb Ek Hg Hmk) as Mn. destruct Hmk as (R' & X & V & _).
  exists f. unfold base_op. rewrite E. set (c1 := Cnet t' (equivs c) (reprs c) (cval c) (cvis c) (ctrav c)). exists c1.
  assert (I1 : dupinv c1 (<[n := Some f]> m)).
  { split; cbn [cb equivs c1].
    - done.
    - rewrite (ext_ins _ _ X). apply I.
    - rewrite (ext_npi _ _ X). apply I.
    - apply I.
    - rewrite insert_length. apply I.
    - rewrite cnt_insert by done. pose proof (du_cnt _ _ I). lia.
    - intros x g. destruct (decide (x = n)) as [->|Hx].
      + rewrite list_lookup_insert by (by eapply lookup_lt_Some). by intros [= <-].
      + rewrite list_lookup_insert_ne by done. intros E'. eapply mirrors_ext; [exact X|]. by apply (du_map _ _ I).
    - intros x Hx. destruct (du_src _ _ I x Hx) as [g E']. exists g. rewrite list_lookup_insert_ne; [done|]. intros <-. congruence.
    - intros x y L. destruct (du_links _ _ I x y L) as [? ?]. split; [done|]. by eapply alike_ext; [apply X|apply X|]. }
  destruct ne as [[x g]|].
  2:{ exists c1. done. }
  destruct Hne as [Hlk Eg]. case_decide as Hlt; [|by exists c1].
  unfold set_equiv. assert (Hfl : sidx f < length (equivs c1)).
  { rewrite (du_le _ _ I1). pose proof (du_cnt _ _ I). pose proof (cnt_lt m n En). rewrite (du_lm _ _ I) in *. unfold valid in V. lia. }
  destruct (lookup_lt_is_Some_2 _ _ Hfl) as [o Eo]. rewrite Eo. cbn [mbind option_bind]. eexists. split; [done|]. split; [done|]. split; [|done].
  split.
  - exact (du_reach _ _ I1).
  - exact (du_ins _ _ I1).
  - exact (du_npi _ _ I1).
  - cbn [equivs]. rewrite insert_length. exact (du_le _ _ I1).
  - exact (du_lm _ _ I1).
  - exact (du_cnt _ _ I1).
  - exact (du_map _ _ I1).
  - exact (du_src _ _ I1).
  - intros y z L. unfold link in L. cbn [equivs cb] in *. destruct (decide (y = sidx f)) as [->|Hy].
    + rewrite list_lookup_insert in L by done. injection L as <-. split; [done|].
      eapply (mirrors_alike (cb t)); [apply dup_net|done|exact Mn| |by apply Hta]. eapply mirrors_ext; [exact X|]. by apply (du_map _ _ I).
    + rewrite list_lookup_insert_ne in L by done. by apply (du_links _ _ I1).
Qed.

Lemma dup_rec_ok : forall fuel n Q c m, dupinv c m -> n < size (cb t) -> NoDup Q ->
  (forall x, x ∈ Q -> x < size (cb t) /\ tc (cedge t) x n) -> size (cb t) < length Q + fuel ->
  exists c' m', dup_rec t fuel n (c, m) = Some (c', m') /\ dupinv c' m' /\ mapped m' n /\ ext (cb c) (cb c') /\
    (forall x f, m !! x = Some (Some f) -> m' !! x = Some (Some f)) /\
    (forall x, mapped m' x -> mapped m x \/ rtc (cedge t) n x).
Proof using All.
  induction fuel as [|fuel IH]; intros n Q c m I Hn Hd HQ Hf.
  { exfalso. assert (L : length Q <= length (seq 0 (size (cb t)))).
    { apply NoDup_incl_length; [by apply NoDup_ListNoDup|]. intros x Hx%elem_of_list_In. apply in_seq. apply HQ in Hx. lia. }
    rewrite seq_length in L. lia. }
  cbn [dup_rec snd]. destruct (lookup_lt_is_Some_2 m n) as [o Eo]; [rewrite (du_lm _ _ I); done|]. rewrite Eo. cbn [mbind option_bind].
  destruct o as [f|].
  { exists c, m. split; [done|]. split; [done|]. split; [by exists f|]. split; [apply ext_refl|]. split; [done|]. intros x Hx. by left. }
  pose proof (dup_unmapped c m n I Eo) as Hg. pose proof Hg as (a & b & Ek & H0 & Hab). pose proof (chist_cinv t Ht) as Ci.
  assert (Hacy : forall x, cedge t n x -> rtc (cedge t) x n -> False).
  { intros x Hx Hr. apply (ci_acyclic _ Ci n). eapply tc_rtc_r; [by apply tc_once|done]. }
  assert (HQn : NoDup (n :: Q)).
  { apply NoDup_cons. split; [|done]. intros Hin. apply HQ in Hin as [_ Hin]. by apply (ci_acyclic _ Ci n). }
  assert (HQ' : forall y, cedge t n y -> forall x, x ∈ n :: Q -> x < size (cb t) /\ tc (cedge t) x y).
  { intros y Hy x Hx. apply elem_of_cons in Hx as [->|Hx]; [split; [done|by apply tc_once]|]. destruct (HQ x Hx) as [? Hp]. split; [done|].
    by eapply tc_r. }
  assert (Hstep : forall y c m, cedge t n y -> y < size (cb t) -> dupinv c m -> exists c' m', dup_rec t fuel y (c, m) = Some (c', m') /\ dupinv c' m' /\ mapped m' y /\
    ext (cb c) (cb c') /\ (forall x f, m !! x = Some (Some f) -> m' !! x = Some (Some f)) /\ (forall x, mapped m' x -> mapped m x \/ rtc (cedge t) y x)).
  { intros y c' m' Hy Hys I'. apply (IH y (n :: Q)); [done|done|done|by apply HQ'|cbn [length]; lia]. }
  assert (Hnone : forall y m m', cedge t n y -> m !! n = Some None -> length m' = size (cb t) ->
    (forall x, mapped m' x -> mapped m x \/ rtc (cedge t) y x) -> m' !! n = Some None).
  { intros y m1 m2 Hy E1 Hl Hfr. destruct (lookup_lt_is_Some_2 m2 n) as [o E2]; [lia|]. destruct o as [f|]; [|done].
    destruct (Hfr n) as [[g Eg]|Hr]; [by exists f|congruence|]. by destruct (Hacy y Hy). }
  unfold get_equiv_node. destruct (lookup_lt_is_Some_2 (equivs t) n) as [e Ee]; [lia|]. rewrite Ee. cbn [mbind option_bind].
  assert (Fa : fanin (cb t) n (sidx a)) by (exists a, b; naive_solver). assert (Fb : fanin (cb t) n (sidx b)) by (exists a, b; naive_solver).
  pose proof (net_gate _ dup_net _ _ Fa) as Sa. pose proof (net_gate _ dup_net _ _ Fb) as Sb.
  (* the choice *)
  assert (Hone : exists c1 m1 (ne : option (nat * signal)), match e with Some x => dup_rec t fuel x (c, m) | None => Some (c, m) end = Some (c1, m1) /\
     match e with Some x => o ← m1 !! x; f ← o; Some (Some f) | None => Some None end = Some (option_map snd ne) /\
     match ne with Some (x, g) => link t n x /\ m1 !! x = Some (Some g) | None => True end /\
     dupinv c1 m1 /\ ext (cb c) (cb c1) /\ m1 !! n = Some None /\ (forall x f, m !! x = Some (Some f) -> m1 !! x = Some (Some f)) /\
     (forall x, mapped m1 x -> mapped m x \/ rtc (cedge t) n x)).
  { destruct e as [x|].
    - assert (Hx : cedge t n x) by (by right). destruct (Hstep x c m Hx) as (c1 & m1 & E1 & I1 & [g Eg] & X1 & K1 & F1); [apply (ci_bound _ Ci n x Ee)|done|].
      exists c1, m1, (Some (x, g)). split; [done|]. rewrite Eg. split; [done|]. split; [done|]. split; [done|]. split; [done|].
      split; [by eapply Hnone; [exact Hx|exact Eo|apply I1|]|]. split; [done|]. intros y Hy. destruct (F1 y Hy) as [?|?]; [by left|]. right. by eapply rtc_l.
    - exists c, m, None. split; [done|]. split; [done|]. split; [done|]. split; [done|]. split; [apply ext_refl|]. split; [done|]. split; [done|].
      intros y Hy. by left. }
  destruct Hone as (c1 & m1 & ne & E1 & En1 & Hne & I1 & X1 & N1 & K1 & F1). rewrite E1. cbn [mbind option_bind snd].
  change (snd (c1, m1)) with m1. rewrite En1. cbn [mbind option_bind]. rewrite Ek. cbn [mbind option_bind fst snd].
  destruct (Hstep (sidx a) c1 m1 (or_introl Fa) Sa I1) as (c2 & m2 & E2 & I2 & [fa Ea] & X2 & K2 & F2). rewrite E2. cbn [mbind option_bind].
  pose proof (Hnone _ m1 m2 (or_introl Fa) N1 ltac:(apply I2) F2) as N2.
  destruct (Hstep (sidx b) c2 m2 (or_introl Fb) Sb I2) as (c3 & m3 & E3 & I3 & [fb Eb] & X3 & K3 & F3). rewrite E3. cbn [mbind option_bind fst snd].
  pose proof (Hnone _ m2 m3 (or_introl Fb) N2 ltac:(apply I3) F3) as N3. apply K3 in Ea.
  unfold img. rewrite Ea, Eb. cbn [mbind option_bind].
  assert (Hne3 : match ne with Some (x, g) => link t n x /\ m3 !! x = Some (Some g) | None => True end).
  { destruct ne as [[x g]|]; [|done]. destruct Hne as [? ?]. split; [done|]. by apply K3, K2. }
  destruct (dup_gate c3 m3 n a b fa fb ne I3 N3 Ek Ea Eb Hne3) as (f & c4 & c5 & E4 & E5 & I5 & X5).
  rewrite E4. cbn [mbind option_bind]. exists c5, (<[n := Some f]> m3). split.
  { destruct ne as [[x g]|]; cbn [option_map snd]; rewrite E5; done. }
  split; [done|]. split; [exists f; apply list_lookup_insert; by eapply lookup_lt_Some|].
  split; [eapply ext_trans; [exact X1|]; eapply ext_trans; [exact X2|]; by eapply ext_trans|]. split.
  - intros x g E. rewrite list_lookup_insert_ne; [by apply K3, K2, K1|]. intros <-. congruence.
  - intros x Hx. destruct (decide (x = n)) as [->|Hxn]; [by right|].
    assert (Hx3 : mapped m3 x). { destruct Hx as [g E]. rewrite list_lookup_insert_ne in E by done. by exists g. }
    destruct (F3 x Hx3) as [Hx2|?]; [|right; eapply rtc_l; [left; exact Fb|done]].
    destruct (F2 x Hx2) as [Hx1|?]; [by apply F1|right; eapply rtc_l; [left; exact Fa|done]].
Qed.

Theorem man_dup_dfs_spec nb : 0 < nb -> exists c, man_dup_dfs t nb = Some c /\ reachable (cb c) /\ ins (cb c) = seq 1 k /\ npi (cb c) = k /\
  npo (cb c) = length (outs (cb c)) /\ Forall2 (renders (cb t) (cb c)) (outs (cb t)) (outs (cb c)) /\
  forall a b, link c a b -> b < a /\ alike (cb c) a b.
Proof using All.
  intros Hb. unfold man_dup_dfs. pose proof dup_net as W.
  assert (Hk : length (ins (cb t)) = k) by (by rewrite Hti, seq_length).
  assert (Hks : k < size (cb t)).
  { destruct k as [|k']; [by apply net_size|]. pose proof (net_ins_valid _ W) as Hv. rewrite Forall_forall in Hv. apply Hv. rewrite Hti.
    apply elem_of_seq. lia. }
  destruct (copy_cis (ins (cb t)) (size (cb t)) nb Hb) as (c0 & m0 & E0 & H0 & Hi & Hn & Ho & Hno & Hsz & He & Hr & Hlm & Hct & Hm).
  { by rewrite Hk. } { lia. }
  rewrite E0. cbn [mbind option_bind]. rewrite Hk in *.
  pose proof (ci_reach _ (chist_cinv c0 H0)) as R.
  assert (I0 : dupinv c0 m0).
  { split; try done.
    - rewrite He. unfold init_equivs. by rewrite repeat_length.
    - lia.
    - intros n f E'. destruct (Hm _ _ E') as [[-> [= ->]]|[[Hin [= ->]]|(_ & _ & ?)]]; [by apply mirrors_const| |done].
      rewrite Hti in Hin. apply elem_of_seq in Hin. split; [unfold valid; cbn; lia|]. intros env v V. unfold sval. cbn. rewrite xorb_false_r.
      destruct n as [|i]; [lia|]. rewrite (in_value _ k i env R Hi) by lia. symmetry. apply (val_input _ _ _ V). rewrite Hti. apply lookup_seq_lt. lia.
    - intros n Hn'. assert (Hlt : n < size (cb t)).
      { destruct Hn' as [->|Hin]; [lia|]. rewrite Hti in Hin. apply elem_of_seq in Hin. lia. }
      destruct (lookup_lt_is_Some_2 m0 n) as [o E']; [lia|]. destruct (Hm _ _ E') as [[_ ->]|[[_ ->]|(Hx & Hin & _)]]; [by eexists..|].
      by destruct Hn'.
    - intros a b L. exfalso. unfold link in L. rewrite He in L. apply elem_of_list_lookup_2 in L. unfold init_equivs in L. by apply elem_of_list_In, repeat_spec in L. }
  destruct (each_total (dup_co t) (fun p d => dupinv d.1 d.2 /\ npo (cb d.1) = length (outs (cb d.1)) /\
     Forall2 (renders (cb t) (cb d.1)) p (outs (cb d.1))) (outs (cb t)) (c0, m0)) as ([c m] & E & I & Hpo & Hou).
  - cbn. split; [done|]. rewrite Ho, Hno. split; [done|constructor].
  - intros p f q [c m] El (I & Hpo & Hou). cbn [fst snd] in *. unfold dup_co.
    assert (Hfs : sidx f < size (cb t)).
    { pose proof (net_out _ W) as Hv. rewrite Forall_forall in Hv. apply Hv. rewrite El. apply elem_of_app. right. apply elem_of_list_here. }
    destruct (dup_rec_ok (S (size (cb t))) (sidx f) [] c m I Hfs) as (c1 & m1 & E1 & I1 & [g Eg] & X1 & K1 & _).
    { constructor. } { by intros x Hx%elem_of_nil. } { cbn. lia. }
    rewrite E1. cbn [mbind option_bind fst snd]. unfold img. rewrite Eg. cbn [mbind option_bind]. unfold base_op.
    destruct (du_map _ _ I1 _ _ Eg) as [Vg Hg].
    pose proof (create_po_r (cb c1) (sxor g (scompl f)) (du_reach _ _ I1) Vg) as K.
    apply wp_elim in K as (r & t' & Et & Rt & Kk & Ki & Ko & Kpi & Kpo & _). rewrite Et. cbn [mbind option_bind].
    eexists. split; [done|]. cbn [fst snd cb]. split; [|split].
    + split; cbn [cb equivs].
      * done.
      * rewrite Ki. apply I1.
      * rewrite Kpi. apply I1.
      * apply I1.
      * apply I1.
      * unfold size. rewrite Kk. apply I1.
      * intros n h E'. eapply mirrors_same; [exact Kk|]. by apply (du_map _ _ I1).
      * apply I1.
      * intros a b L. destruct (du_links _ _ I1 a b L). split; [done|]. eapply alike_ext; [|exact Ki|done]. exists []. by rewrite app_nil_r.
    + rewrite Kpo, Ko, app_length, (ext_npo _ _ X1), (ext_outs _ _ X1), Hpo. cbn. lia.
    + rewrite Ko, (ext_outs _ _ X1). apply Forall2_app.
      * eapply Forall2_impl; [exact Hou|]. intros f' g' [V' H']. split.
        -- unfold valid, size. rewrite Kk. by apply (ext_valid _ _ _ X1).
        -- intros env v V. rewrite <- (H' env v V), <- (ext_sval _ _ env g' X1 V'). unfold sval. by rewrite (ev_same (cb c1)).
      * constructor; [|constructor]. split; [unfold valid, size; by rewrite Kk|]. intros env v V. unfold sval in *. rewrite (ev_same (cb c1)) by done.
        cbn. rewrite <- (Hg env v V). by rewrite xorb_assoc.
  - rewrite E. cbn [mbind option_bind fst]. cbn [fst snd] in *. exists c. split; [done|]. split; [apply I|]. split; [apply I|]. split; [apply I|].
    split; [done|]. split; [done|apply I].
Qed.
End dup.
