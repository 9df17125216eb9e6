(* Proofs about the reverse depths and the fanout sets of RefactorPass.v. *)
From Verif Require Import Base Aig AigSem AigProofs AigApi NetProofs Topo Clean CleanProofs Tt RefDeref Refactor RefactorProofs Factor Subst RefactorPass.

Lemma ofold_app {A B} (f : A -> B -> option A) l1 l2 a : ofold f a (l1 ++ l2) = a' ← ofold f a l1; ofold f a' l2.
Proof. revert a. induction l1 as [|x l IH]; intros a; cbn [app ofold]; [done|]. destruct (f a x); cbn; [apply IH|done]. Qed.

Lemma rdepth_fanins_ok s d fs : Forall (fun c => c < size s) fs -> forall m : depths,
  (forall c, c ∈ fs -> is_pi s c = Some false -> is_Some (m c)) ->
  exists m', ofold (rdepth_fanin s d) m fs = Some m' /\ (forall j, j ∉ fs -> m' j = m j) /\
    forall j k, m j = Some k -> exists k', m' j = Some k' /\ k <= k' /\ (k' = k \/ j ∈ fs /\ k' = d + 1) /\
      (j ∈ fs -> is_pi s j = Some false -> d + 1 <= k').
Proof.
  induction 1 as [|c fs Hc Hfs IH]; intros m Hm; cbn [ofold].
  - exists m. split; [done|]. split; [done|]. intros j k Hj. exists k. split; [done|]. split; [lia|]. split; [by left|]. by intros ?%elem_of_nil.
  - assert (H : exists m1, rdepth_fanin s d m c = Some m1 /\ (forall j, j <> c -> m1 j = m j) /\
      forall k, m c = Some k -> exists k', m1 c = Some k' /\ k <= k' /\ (k' = k \/ k' = d + 1) /\ (is_pi s c = Some false -> d + 1 <= k')).
    { unfold rdepth_fanin. destruct (is_pi_some s c Hc) as [pi Epi]. rewrite Epi. cbn [mbind option_bind]. destruct pi.
      - exists m. split; [done|]. split; [done|]. intros k Hk. exists k. split; [done|]. split; [lia|]. split; [by left|]. done.
      - destruct (Hm c) as [k Hk]; [left|done|]. rewrite Hk. cbn [mbind option_bind]. eexists. split; [done|]. split.
        + intros j Hj. case_decide; [by rewrite setv_ne|done].
        + intros k0 [= <-]. case_decide.
          * exists (d + 1). rewrite setv_eq. split; [done|]. split; [lia|]. split; [by right|]. lia.
          * exists k. split; [done|]. split; [lia|]. split; [by left|]. lia. }
    destruct H as (m1 & -> & H1 & H2). cbn [mbind option_bind].
    assert (Hm1 : forall j, is_Some (m j) -> is_Some (m1 j)).
    { intros j [k Hj]. destruct (decide (j = c)) as [->|Hjc]; [|rewrite H1; eauto]. destruct (H2 k Hj) as (k' & -> & _). eauto. }
    destruct (IH m1) as (m' & -> & H3 & H4).
    { intros j Hj Hp. apply Hm1, Hm; [by right|done]. }
    exists m'. split; [done|]. split.
    + intros j [Hj1 Hj2]%not_elem_of_cons. rewrite H3 by done. by apply H1.
    + intros j k Hk. destruct (decide (j = c)) as [->|Hjc].
      * destruct (H2 k Hk) as (k1 & E1 & L1 & D1 & P1). destruct (H4 c k1 E1) as (k2 & E2 & L2 & D2 & P2).
        exists k2. split; [done|]. split; [lia|]. split.
        -- destruct D2 as [->|[_ ->]]; [|right; split; [left|done]]. destruct D1 as [->| ->]; [by left|right; split; [left|done]].
        -- intros _ Hp. specialize (P1 Hp). lia.
      * rewrite <- (H1 j Hjc) in Hk. destruct (H4 j k Hk) as (k2 & E2 & L2 & D2 & P2).
        exists k2. split; [done|]. split; [lia|]. split.
        -- destruct D2 as [->|[? ->]]; [by left|right; split; [by right|done]].
        -- intros [?|?]%elem_of_cons Hp; [done|]. by apply P2.
Qed.

Lemma rdepth_init_ok s l : Forall (fun c => c < size s) l -> forall m : depths, (forall j k, m j = Some k -> k = 1) ->
  exists m', ofold (rdepth_init s) m l = Some m' /\ (forall j k, m' j = Some k -> k = 1) /\
    (forall j, is_Some (m' j) <-> is_Some (m j) \/ j ∈ l /\ is_pi s j = Some false).
Proof.
  induction 1 as [|c l Hc Hl IH]; intros m Hm; cbn [ofold].
  - exists m. split; [done|]. split; [done|]. intros j. split; [by left|]. intros [?|[?%elem_of_nil _]]; done.
  - unfold rdepth_init at 2. destruct (is_pi_some s c Hc) as [pi Epi]. rewrite Epi. cbn [mbind option_bind].
    assert (Hn : forall j k, (if pi then m else insert_new m c 1) j = Some k -> k = 1).
    { intros j k. destruct pi; [apply Hm|]. unfold insert_new. destruct (m c) eqn:Ec; [apply Hm|].
      destruct (decide (j = c)) as [->|Hjc]; [rewrite setv_eq; congruence|rewrite setv_ne by done; apply Hm]. }
    destruct (IH _ Hn) as (m' & -> & H1 & H2). exists m'. split; [done|]. split; [done|]. intros j. rewrite H2. clear H1 H2.
    destruct pi.
    + split; [intros [?|[? ?]]; [by left|right; split; [by right|done]]|]. intros [?|[[->|?]%elem_of_cons ?]]; [by left|congruence|by right].
    + unfold insert_new. destruct (m c) eqn:Ec.
      * split; [intros [?|[? ?]]; [by left|right; split; [by right|done]]|]. intros [?|[[->|?]%elem_of_cons ?]]; [by left|left; eauto|by right].
      * destruct (decide (j = c)) as [->|Hjc].
        -- rewrite setv_eq. split; [intros _; right; split; [left|done]|]. intros _. left. eauto.
        -- rewrite setv_ne by done. split; [intros [?|[? ?]]; [by left|right; split; [by right|done]]|].
           intros [?|[[->|?]%elem_of_cons ?]]; [by left|done|by right].
Qed.

Lemma listed_in_use s l : network s -> topo_order (aig_fan s) (0 :: ins s) (map sidx (outs s)) l ->
  forall n, n ∈ l <-> in_use s n \/ n ∈ 0 :: ins s.
Proof.
  intros W T n. rewrite (to_elem _ _ _ _ T). split.
  - intros [?|(r & Hr & Hn)]; [by right|]. left. apply elem_of_list_fmap in Hr as (f & -> & Hf).
    exists f. split; [done|]. by apply rtc_edge_fanin.
  - intros [(f & Hf & Hn)|?]; [right|by left]. exists (sidx f). split; [by apply elem_of_list_fmap_1|]. by apply rtc_edge_fanin.
Qed.

Lemma reverse_ok s : network s -> exists m, compute_reverse_depth_info s = Some m /\
  (forall n, in_use s n -> is_pi s n = Some false -> exists k, m n = Some (S k) /\ highest s n k).
Proof.
  intros W. destruct (aig_topo_spec s W) as (l & El & T & Hlt). unfold compute_reverse_depth_info. rewrite El. cbn [mbind option_bind].
  pose proof (listed_in_use s l W T) as Hl.
  destruct (rdepth_init_ok s l Hlt (fun _ => None)) as (m0 & -> & H1 & H2); [done|]. cbn [mbind option_bind].
  rewrite Forall_forall in Hlt.
  assert (Hdown : forall n c, n ∈ l -> fanin s n c -> in_use s c /\ in_use s n).
  { intros n c Hn Hc. apply Hl in Hn as [Hn|Hn]; [|by destruct (source_no_fanin s n c W Hn)].
    split; [|done]. destruct Hn as (f & Hf & Hn). exists f. split; [done|]. eapply rtc_r; [exact Hn|done]. }
  assert (G : forall pre post (m : depths), l = pre ++ post ->
    (forall n, n ∈ l -> is_pi s n = Some false -> exists k, m n = Some (S k) /\ (k = 0 \/ exists r, in_use s r /\ nsteps (fanin s) k r n)) ->
    (forall p c kp, p ∈ post -> fanin s p c -> is_pi s c = Some false -> m p = Some kp -> exists kc, m c = Some kc /\ kp + 1 <= kc) ->
    exists m', ofold (rdepth_step s) m (rev pre) = Some m' /\
    (forall n, n ∈ l -> is_pi s n = Some false -> exists k, m' n = Some (S k) /\ (k = 0 \/ exists r, in_use s r /\ nsteps (fanin s) k r n)) /\
    (forall p c kp, p ∈ l -> fanin s p c -> is_pi s c = Some false -> m' p = Some kp -> exists kc, m' c = Some kc /\ kp + 1 <= kc)).
  { induction pre as [|n pre IH] using rev_ind; intros post m Ep I1 I2.
    - cbn. exists m. cbn in Ep. subst post. auto.
    - rewrite rev_unit. cbn [ofold]. rewrite <- app_assoc in Ep. cbn in Ep.
      assert (Hin : n ∈ l) by (rewrite Ep; apply elem_of_app; right; left).
      assert (Hpos : l !! length pre = Some n) by (rewrite Ep; by apply list_lookup_middle).
      assert (Hnd : NoDup l) by apply (to_nodup _ _ _ _ T).
      assert (Hearly : forall c, fanin s n c -> c ∈ pre).
      { intros c Hc. destruct (to_after _ _ _ _ T (length pre) n c Hpos) as (j & Hj & Ej); [by apply edge_fanin|].
        rewrite Ep, lookup_app_l in Ej by done. by eapply elem_of_list_lookup_2. }
      assert (Hfresh : forall c, c ∈ pre -> c ∉ n :: post).
      { intros c Hc. rewrite Ep in Hnd. apply NoDup_app in Hnd as (_ & Hd & _). by apply Hd. }
      assert (Hsame : (forall c, ~ fanin s n c) -> exists m', ofold (rdepth_step s) m (rev pre) = Some m' /\
        (forall n, n ∈ l -> is_pi s n = Some false -> exists k, m' n = Some (S k) /\ (k = 0 \/ exists r, in_use s r /\ nsteps (fanin s) k r n)) /\
        (forall p c kp, p ∈ l -> fanin s p c -> is_pi s c = Some false -> m' p = Some kp -> exists kc, m' c = Some kc /\ kp + 1 <= kc)).
      { intros Hno. apply (IH (n :: post)); [done|done|]. intros p c kp [->|Hp]%elem_of_cons Hf; [by destruct (Hno c)|]. by eapply I2. }
      unfold rdepth_step at 2. destruct (is_pi_some s n (Hlt n Hin)) as [pi Epi]. rewrite Epi. cbn [mbind option_bind].
      destruct (source_or_gate s n W (Hlt n Hin)) as [Hs|(a & b & E & H0 & Hab)].
      + destruct pi; cbn [mbind option_bind]; [apply Hsame; intros c; by apply source_no_fanin|].
        destruct (I1 n Hin Epi) as (k & -> & _). cbn [mbind option_bind]. rewrite (source_fan s n W Hs). cbn [mbind option_bind ofold].
        apply Hsame. intros c. by apply source_no_fanin.
      + rewrite (is_pi_gate s n) in Epi by (by exists a, b). injection Epi as <-. cbn [mbind option_bind].
        destruct (I1 n Hin) as (k & Ek & Hk); [by rewrite (is_pi_gate s n) by (by exists a, b)|]. rewrite Ek. cbn [mbind option_bind].
        rewrite (gate_fan s n a b E H0 Hab). cbn [mbind option_bind].
        assert (Hfan : forall c, c ∈ [sidx a; sidx b] -> fanin s n c).
        { intros c Hc. exists a, b. split; [done|]. split; [done|]. split; [done|].
          apply elem_of_cons in Hc as [->|Hc]; [by left|]. apply elem_of_list_singleton in Hc. by right. }
        assert (Hfl : forall c, c ∈ [sidx a; sidx b] -> c ∈ l) by (intros c Hc; rewrite Ep; apply elem_of_app; left; by apply Hearly, Hfan).
        destruct (rdepth_fanins_ok s (S k) [sidx a; sidx b]) with (m := m) as (m1 & -> & J1 & J2).
        { apply Forall_forall. intros c Hc. by apply Hlt, Hfl. }
        { intros c Hc Hp. destruct (I1 c (Hfl c Hc) Hp) as (? & -> & _). eauto. }
        cbn [mbind option_bind]. apply (IH (n :: post)); [done|..].
        * intros j Hj Hp. destruct (I1 j Hj Hp) as (kj & Ej & Pj). destruct (J2 j _ Ej) as (k' & Ej' & _ & D & _).
          destruct D as [->|[Hjf ->]]; [eauto|]. exists (S k). split; [rewrite Ej'; f_equal; lia|]. right.
          destruct Hk as [->|(r & Hr & Hst)].
          -- exists n. split; [by apply (Hdown n j Hin), Hfan|]. apply nsteps_once. by apply Hfan.
          -- exists r. split; [done|]. eapply nsteps_r; [exact Hst|]. by apply Hfan.
        * intros p c kp Hp Hf Hpi Em.
          assert (Hpm : m1 p = m p).
          { apply J1. intros Hpf. apply (Hfresh p); [by apply Hearly, Hfan|done]. }
          rewrite Hpm in Em. apply elem_of_cons in Hp as [->|Hp].
          -- rewrite Ek in Em. injection Em as <-.
             assert (Hcf : c ∈ [sidx a; sidx b]).
             { destruct Hf as (a' & b' & E' & _ & _ & Hc). rewrite E in E'. injection E' as <- <-. destruct Hc as [->| ->]; [left|right; left]. }
             destruct (I1 c (Hfl c Hcf) Hpi) as (kc & Ec & _). destruct (J2 c _ Ec) as (k' & Ec' & _ & _ & D). exists k'. split; [done|]. by apply D.
          -- destruct (I2 p c kp Hp Hf Hpi Em) as (kc & Ec & Lc). destruct (J2 c _ Ec) as (k' & Ec' & L & _). exists k'. split; [done|lia]. }
  destruct (G l [] m0) as (m & -> & I1 & I2); [by rewrite app_nil_r|..|].
  { intros n Hn Hp. exists 0. split; [|by left]. destruct (proj2 (H2 n)) as [k Hk]; [right; auto|]. by rewrite Hk, (H1 n k Hk). }
  { by intros p c kp ?%elem_of_nil. }
  exists m. split; [done|]. intros n Hn Hp.
  destruct (I1 n) as (k & Ek & Pk); [apply Hl; by left|done|]. exists k. split; [done|]. split.
  - destruct Pk as [->|?]; [|done]. exists n. split; [done|]. constructor.
  - intros d r Hr Hst. assert (Hup : forall d r j, in_use s r -> nsteps (fanin s) d r j -> forall kj, is_pi s j = Some false -> m j = Some kj -> S d <= kj).
    { clear d r Hr Hst. induction d as [|d IHd]; intros r j Hr Hst kj Hpj Ej.
      - inversion Hst; subst. destruct (I1 j) as (k0 & Ej' & _); [apply Hl; by left|done|]. rewrite Ej in Ej'. injection Ej' as ->. lia.
      - apply nsteps_inv_r in Hst as (y & Hst & Hy).
        assert (Hyu : in_use s y). { destruct Hr as (f & Hf & Hr). exists f. split; [done|]. etrans; [exact Hr|]. apply rtc_nsteps. by exists d. }
        assert (Hyp : is_pi s y = Some false) by (destruct Hy as (a & b & E & H0 & Hab & _); apply is_pi_gate; by exists a, b).
        destruct (I1 y) as (ky & Ey & _); [apply Hl; by left|done|].
        pose proof (IHd r y Hr Hst _ Hyp Ey). destruct (I2 y j _ ltac:(apply Hl; by left) Hy Hpj Ey) as (kc & Ec & L). rewrite Ej in Ec. injection Ec as ->. lia. }
    pose proof (Hup d r n Hr Hst _ Hp Ek). lia.
Qed.

(* ---- fanout sets ---- *)
Lemma is_dead_some s n : network s -> n < size s -> is_Some (is_dead s n).
Proof. intros W H. unfold is_dead. rewrite <- (net_fo _ W) in H. apply lookup_lt_is_Some in H as [h ->]. cbn. eauto. Qed.
Definition fan_of (m : fanmap) (c n : nat) : Prop := exists l, m c = Some l /\ n ∈ l.
Lemma fan_of_add n m c c' n' : fan_of (add_fanout n m c) c' n' <-> fan_of m c' n' \/ c' = c /\ n' = n.
Proof.
  unfold add_fanout, fan_of. destruct (m c) as [l|] eqn:Ec.
  - destruct (decide (c' = c)) as [->|Hc]; [rewrite setv_eq|rewrite setv_ne by done; naive_solver].
    rewrite Ec. split.
    + intros (l' & [= <-] & Hl). case_decide; [left; eauto|]. apply elem_of_cons in Hl as [->|Hl]; [by right|left; eauto].
    + intros [(l' & [= <-] & Hl)|[_ ->]]; eexists; (split; [done|]); case_decide; [done|by right|done|left].
  - destruct (decide (c' = c)) as [->|Hc]; [rewrite setv_eq|rewrite setv_ne by done; naive_solver].
    rewrite Ec. split.
    + intros (l' & [= <-] & ->%elem_of_list_singleton). by right.
    + intros [(l' & [=] & _)|[_ ->]]. eexists. split; [done|left].
Qed.
Lemma fan_of_adds n fs m c' n' : fan_of (foldl (add_fanout n) m fs) c' n' <-> fan_of m c' n' \/ c' ∈ fs /\ n' = n.
Proof.
  revert m. induction fs as [|c fs IH]; intros m; cbn [foldl].
  - split; [by left|]. intros [?|[?%elem_of_nil _]]; done.
  - rewrite IH, fan_of_add, elem_of_cons. tauto.
Qed.
Lemma fan_nodup n m c : (forall j l, m j = Some l -> NoDup l) -> forall j l, add_fanout n m c j = Some l -> NoDup l.
Proof.
  intros H j l. unfold add_fanout. destruct (m c) as [lc|] eqn:Ec; (destruct (decide (j = c)) as [->|Hj]; [rewrite setv_eq|rewrite setv_ne by done; apply H]); intros [= <-].
  - case_decide; [by eapply H|]. constructor; [done|]. by eapply H.
  - apply NoDup_singleton.
Qed.
Lemma fans_nodup n fs m : (forall j l, m j = Some l -> NoDup l) -> forall j l, foldl (add_fanout n) m fs j = Some l -> NoDup l.
Proof. revert m. induction fs as [|c fs IH]; intros m H; cbn [foldl]; [done|]. apply IH. by apply fan_nodup. Qed.

Definition fan_step (s : aig) (m : fanmap) (n : nat) : option fanmap := d ← is_dead s n; if d : bool then Some m else add_fanouts s m n.
Lemma fanouts_ok s : network s -> exists m, compute_fanouts_info s = Some m /\ (forall c l, m c = Some l -> NoDup l) /\
  forall c n, fan_of m c n <-> fanin s n c /\ is_dead s n = Some false.
Proof.
  intros W. change (compute_fanouts_info s) with (ofold (fan_step s) (fun _ => None) (seq 0 (size s))).
  assert (G : forall q m, Forall (fun n => n < size s) q -> (forall c l, m c = Some l -> NoDup l) ->
    exists m', ofold (fan_step s) m q = Some m' /\ (forall c l, m' c = Some l -> NoDup l) /\
    forall c n, fan_of m' c n <-> fan_of m c n \/ n ∈ q /\ fanin s n c /\ is_dead s n = Some false).
  { induction q as [|n q IH]; intros m Hq Hm; cbn [ofold].
    - exists m. split; [done|]. split; [done|]. intros c n. split; [by left|]. intros [?|[?%elem_of_nil _]]; done.
    - apply Forall_cons in Hq as [Hn Hq]. destruct (is_dead_some s n W Hn) as [d Ed]. unfold fan_step at 2. rewrite Ed. destruct d; cbn [mbind option_bind].
      + destruct (IH m Hq Hm) as (m' & -> & H1 & H2). cbn. exists m'. split; [done|]. split; [done|]. intros c j. rewrite H2, elem_of_cons.
        split; [tauto|]. intros [?|([->|?] & ? & ?)]; [by left|congruence|tauto].
      + destruct (source_or_gate s n W Hn) as [Hs|(a & b & E & H0 & Hab)]; unfold add_fanouts.
        * rewrite (source_fan s n W Hs). cbn [mbind option_bind foldl].
          destruct (IH m Hq Hm) as (m' & -> & H1 & H2). exists m'. split; [done|]. split; [done|]. intros c j. rewrite H2, elem_of_cons.
          split; [tauto|]. intros [?|([->|?] & Hf & ?)]; [by left|by destruct (source_no_fanin s n c W Hs)|tauto].
        * rewrite (gate_fan s n a b E H0 Hab). cbn [mbind option_bind].
          destruct (IH (foldl (add_fanout n) m [sidx a; sidx b]) Hq (fans_nodup _ _ _ Hm)) as (m' & -> & H1 & H2).
          exists m'. split; [done|]. split; [done|]. intros c j. rewrite H2, fan_of_adds, (elem_of_cons q j n).
          assert (Hf : c ∈ [sidx a; sidx b] <-> fanin s n c).
          { rewrite elem_of_cons, elem_of_list_singleton. split; [intros Hc; exists a, b; auto|].
            intros (a' & b' & E' & _ & _ & Hc). rewrite E in E'. injection E' as <- <-. done. }
          rewrite Hf. split; [intros [[?|[? ->]]|?]; tauto|]. intros [?|([->|?] & ? & ?)]; tauto. }
  destruct (G (seq 0 (size s)) (fun _ => None)) as (m & -> & H1 & H2); [apply Forall_forall; intros n ?%elem_of_seq; lia|done|].
  exists m. split; [done|]. split; [done|]. intros c n. rewrite H2. split; [intros [(l & [=] & _)|?]; tauto|].
  intros [Hf Hd]. right. split; [|done]. apply elem_of_seq. destruct Hf as (a & b & E & _). apply lookup_lt_Some in E. unfold size. lia.
Qed.
