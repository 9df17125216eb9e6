(* Conversion of LUT networks and mapped networks to AIGs. *)
From Verif Require Import Base Aig AigSem AigHash AigProofs AigApi AigReach Topo TopoProofs Clean NetProofs CleanProofs Depth DepthProofs
  Tt TtProofs TtCache TtCacheProofs Klut KlutSem KlutProofs Isop IsopProofs Cnf CnfProofs Mapping MappingProofs CollapseProofs.

Lemma create_nary_and_r s l : reachable s -> Forall (valid s) l ->
  wp (create_nary_and l) s (makes s (fun env => forallb (sval (ev s env)) l)).
Proof.
  intros Hr Hl. eapply wp_mono; [eapply (reach_wp (OpNaryAnd l)); [done| | |]|].
  - done.
  - intros r s' E. by exists r.
  - apply create_nary_and_wp; [by apply reachable_wf|done].
  - cbn beta. intros f s' [? (? & ? & ? & Hv)]. split; [done|]. split; [done|]. split; [done|].
    intros env. rewrite Hv. clear. induction l as [|a l IH]; [done|]. cbn. by rewrite IH.
Qed.

(* g has in d the value of node n of the source; R relates input values to
   the values of the nodes of the source *)
Definition conv (R : (nat -> bool) -> (nat -> bool) -> Prop) (d : aig) (o : option signal) (n : nat) : Prop :=
  exists g, o = Some g /\ valid d g /\ forall env w, R env w -> sval (ev d env) g = w n.

Lemma conv_grows R d d' o n : grows d d' -> conv R d o n -> conv R d' o n.
Proof.
  intros G (g & -> & Hv & H). exists g. split; [done|]. split; [by eapply grows_valid|]. intros env w HR.
  rewrite <- (H env w HR). unfold sval. by rewrite (grows_ev d d').
Qed.

Lemma forallb_lits (v : signal -> bool) c : forall (fs : list signal) o,
  (forall f, v (snot f) = negb (v f)) ->
  forallb v (concat (imap (fun i f => if get_cmask c (o + i) then [if get_cbit c (o + i) then f else snot f] else []) fs)) = true <->
  forall i f, fs !! i = Some f -> get_cmask c (o + i) = true -> v f = get_cbit c (o + i).
Proof.
  intros fs. induction fs as [|f fs IH]; intros o Hn; [cbn; split; [intros _ i f Hf; by rewrite lookup_nil in Hf|done]|].
  rewrite imap_cons. cbn [concat]. rewrite forallb_app, andb_true_iff.
  erewrite imap_ext; [rewrite (IH (S o)) by done|]; cycle 1.
  { intros i x _. cbn. rewrite Nat.add_succ_r. reflexivity. }
  split.
  - intros [H1 H2] [|i] g Hg Hm; cbn in Hg.
    + injection Hg as <-. rewrite Nat.add_0_r in *. rewrite Hm in H1. cbn in H1. rewrite andb_true_r in H1.
      destruct (get_cbit c o); [done|]. rewrite Hn in H1. by apply negb_true_iff.
    + rewrite Nat.add_succ_r in *. by apply (H2 i).
  - intros H. split.
    + specialize (H 0 f eq_refl). rewrite Nat.add_0_r in *. destruct (get_cmask c o); [|done]. cbn. rewrite andb_true_r.
      specialize (H eq_refl). destruct (get_cbit c o); [done|]. rewrite Hn. by rewrite H.
    + intros i g Hg Hm. specialize (H (S i) g Hg). rewrite Nat.add_succ_r in H. by apply H.
Qed.

Definition leaf_val (l : list nat) (w : nat -> bool) (k : nat) : bool := match l !! k with Some c => w c | None => false end.

Lemma cube_and_spec R d leaves l n c : reachable d -> length l = n -> Forall2 (conv R d) leaves l -> cube_below n c ->
  wp (cube_and leaves n c) d (fun g d' => reachable d' /\ ext d d' /\ valid d' g /\
    forall env w, R env w -> sval (ev d' env) g = true <-> cube_on c (leaf_val l w)).
Proof.
  intros Hr Hl HF [Hb _]. unfold cube_and.
  destruct (opt_map_spec (fun i => o ← leaves !! i; o) (seq 0 n)) as (fs & Efs & HFs).
  { intros i Hi%elem_of_seq. destruct (lookup_lt_is_Some_2 l i) as [x Hx]; [lia|].
    destruct (Forall2_lookup_r _ _ _ _ _ HF Hx) as (o & Ho & (g & -> & _)). rewrite Ho. cbn. eauto. }
  assert (Hfs : forall i x, l !! i = Some x -> exists g, fs !! i = Some g /\ conv R d (Some g) x).
  { intros i x Hx. destruct (Forall2_lookup_r _ _ _ _ _ HF Hx) as (o & Ho & Hc). destruct Hc as (g & -> & Hc).
    destruct (Forall2_lookup_l _ _ _ i i HFs) as (g' & Hg' & E).
    { apply lookup_seq. pose proof (lookup_lt_Some _ _ _ Hx). lia. }
    rewrite Ho in E. cbn in E. injection E as <-. exists g. split; [done|]. exists g. done. }
  assert (Hlen : length fs = n) by (rewrite <- (Forall2_length _ _ _ HFs); apply seq_length).
  assert (Hfs' : forall i g, fs !! i = Some g -> exists x, l !! i = Some x /\ conv R d (Some g) x).
  { intros i g Hg. destruct (lookup_lt_is_Some_2 l i) as [x Hx]; [pose proof (lookup_lt_Some _ _ _ Hg); lia|].
    exists x. split; [done|]. destruct (Hfs i x Hx) as (g' & Hg' & Hc). congruence. }
  apply wp_bnd, (wp_lift _ fs); [done|].
  eapply wp_mono; [apply create_nary_and_r; [done|]|].
  - apply Forall_forall. intros f Hf. apply elem_of_list_In in Hf. apply in_concat in Hf as (y & Hy & Hf).
    apply elem_of_list_In in Hy. apply elem_of_lookup_imap in Hy as (i & g & -> & Hg). destruct (Hfs' i g Hg) as (x & _ & (g' & [= <-] & Hv & _)).
    destruct (get_cmask c i); [|done]. destruct Hf as [<-|[]]. destruct (get_cbit c i); [done|]. by apply valid_snot.
  - cbn beta. intros g d' (Hr' & He & Hv & Hval). split; [done|]. split; [done|]. split; [done|]. intros env w HR.
    rewrite Hval. rewrite (forallb_lits (sval (ev d env)) c fs 0) by (intros; apply sval_snot). cbn [Nat.add]. unfold cube_on. split.
    + intros H i Hm. unfold leaf_val. destruct (lookup_lt_is_Some_2 l i) as [x Hx]; [by rewrite Hl; apply Hb|]. rewrite Hx.
      destruct (Hfs i x Hx) as (f & Hf & (g' & [= <-] & _ & Hc)). rewrite <- (Hc env w HR). by apply (H i).
    + intros H i f Hf Hm. destruct (Hfs' i f Hf) as (x & Hx & (g' & [= <-] & _ & Hc)). rewrite (Hc env w HR), <- (H i Hm). unfold leaf_val. by rewrite Hx.
Qed.

Lemma sop_to_aig_spec R d leaves l f : reachable d -> tt_wf f -> nv f = length l -> Forall2 (conv R d) leaves l ->
  wp (sop_to_aig leaves f) d (fun g d' => reachable d' /\ ext d d' /\ valid d' g /\
    forall env w, R env w -> sval (ev d' env) g = tt_eval f (leaf_val l w)).
Proof.
  intros Hr Hf Hn HF. unfold sop_to_aig. destruct (isop_spec f Hf) as (cs & Ecs & Hcov & Hb & _).
  apply wp_bnd, (wp_lift _ cs); [done|]. apply wp_bnd.
  eapply wp_mono.
  { apply (mapM_wp (cube_and leaves (nv f)) (fun p r d' => reachable d' /\ ext d d' /\ Forall (valid d') r /\
      forall env w, R env w -> existsb (sval (ev d' env)) r = true <-> covered p (leaf_val l w))).
    - split; [done|]. split; [apply ext_refl|]. split; [done|]. intros env w _. cbn. split; [done|]. intros (c & Hc & _). by apply elem_of_nil in Hc.
    - intros p c q r d' Epq (Hr' & He & Hv & Hval).
      eapply wp_mono; [apply (cube_and_spec R d' leaves l); [done|done| |]|].
      + eapply Forall2_impl; [exact HF|]. intros o x Hc. eapply conv_grows; [by apply ext_grows|done].
      + rewrite Forall_forall in Hb. apply Hb. rewrite Epq. apply elem_of_app. right. apply elem_of_list_here.
      + cbn beta. intros g d2 (Hr2 & He2 & Hv2 & Hval2). split; [done|]. split; [by eapply ext_trans|]. split.
        * apply Forall_app. split; [|by apply Forall_singleton]. eapply Forall_impl; [exact Hv|]. intros. by eapply ext_valid.
        * intros env w HR. rewrite existsb_app, orb_true_iff. cbn. rewrite orb_false_r, (Hval2 env w HR).
          assert (existsb (sval (ev d2 env)) r = existsb (sval (ev d' env)) r) as ->.
          { clear -Hv He2. induction Hv as [|a r Ha Hv IH]; [done|]. cbn. by rewrite IH, (ext_sval d' d2). }
          rewrite (Hval env w HR). unfold covered. split.
          -- intros [(c' & Hc & Ho)|Ho]; [exists c'|exists c]; (split; [|done]); apply elem_of_app; [by left|right; apply elem_of_list_here].
          -- intros (c' & [Hc|Hc%elem_of_list_singleton]%elem_of_app & Ho); [left; by exists c'|right; by subst c']. }
  cbn beta. intros r d1 (Hr1 & He1 & Hv1 & Hval1). eapply wp_mono; [apply create_nary_or_r; done|].
  cbn beta. intros g d2 (Hr2 & He2 & Hv2 & Hval2). split; [done|]. split; [by eapply ext_trans|]. split; [done|].
  intros env w HR. apply eq_true_iff_eq. by rewrite Hval2, (Hval1 env w HR), Hcov.
Qed.

(* ---- inputs ---- *)
Lemma conv_pis_spec R nb (sz : nat) (t0 : list (option signal)) (ns : list nat) :
  0 < nb -> length t0 = sz -> NoDup ns -> (forall n, n ∈ ns -> t0 !! n = Some None) ->
  (forall n o, t0 !! n = Some (Some o) -> conv R (aig_init_n nb) (Some o) n) ->
  (forall env w k n, R env w -> ns !! k = Some n -> w n = env k) ->
  wp (foldM conv_pi t0 ns) (aig_init_n nb) (fun t d => reachable d /\ length t = sz /\ length (ins d) = length ns /\ npi d = length ns /\ outs d = [] /\ npo d = 0 /\
    forall n, n ∈ ns \/ (exists o, t0 !! n = Some (Some o)) -> exists o, t !! n = Some o /\ conv R d o n).
Proof.
  intros Hnb Hl Hnd Hno H0 HR.
  eapply wp_mono; [apply (foldM_wp conv_pi (fun p t d => reachable d /\ length t = sz /\ length (ins d) = length p /\ npi d = length p /\ outs d = [] /\ npo d = 0 /\
    (forall n, n ∉ p -> t !! n = t0 !! n) /\
    forall n, n ∈ p \/ (exists o, t0 !! n = Some (Some o)) -> exists o, t !! n = Some o /\ conv R d o n))|].
  - split; [by constructor|]. do 5 (split; [done|]). split; [done|]. intros n [Hn|(o & Ho)]; [by apply elem_of_nil in Hn|].
    exists (Some o). split; [done|]. by apply H0.
  - intros p n q t d Epq (Hr & Ht & Hi & Hp & Ho & Hpo & Hun & Hc).
    assert (Hnp : n ∉ p). { intros Hin. rewrite Epq in Hnd. apply NoDup_app in Hnd as (_ & H & _). by apply (H n Hin), elem_of_list_here. }
    assert (Hn : t0 !! n = Some None) by (apply Hno; rewrite Epq; apply elem_of_app; right; apply elem_of_list_here).
    unfold conv_pi. apply wp_bnd. eapply wp_lift; [rewrite (Hun n Hnp); exact Hn|].
    apply wp_bnd. eapply wp_mono; [by apply create_pi_r|]. cbn beta. intros f d' (Hr' & -> & Hk & Hi' & Ho' & Hp' & Hpo' & _).
    apply wp_ret. assert (G : grows d d') by (split; [rewrite Hk|rewrite Hi'|rewrite Ho'; exists []; by rewrite app_nil_r]; by eexists).
    split; [done|]. split; [by rewrite insert_length|]. rewrite Hi', !app_length, Hi, Hp', Hp. cbn. split; [lia|]. split; [lia|].
    split; [congruence|]. split; [congruence|]. split.
    + intros n' Hn'. rewrite list_lookup_insert_ne; [apply Hun|]; intros H; apply Hn', elem_of_app; [by left|]. right. subst. apply elem_of_list_here.
    + intros n' Hn'. destruct (decide (n' = n)) as [->|Hne].
      * exists (Some (Sig (size d) false)). rewrite list_lookup_insert by (rewrite Ht, <- Hl; by eapply lookup_lt_Some). split; [done|].
        eexists. split; [done|]. split; [unfold valid, size; rewrite Hk, app_length; cbn; lia|].
        intros env w Hw. unfold sval. cbn [sidx scompl]. rewrite (ev_input d' env (length p)).
        -- rewrite xorb_false_r. symmetry. eapply HR; [done|]. by rewrite Epq, lookup_app_r, Nat.sub_diag.
        -- by apply reachable_wf.
        -- by rewrite Hi', lookup_app_r, Hi, Nat.sub_diag by lia.
      * destruct (Hc n') as (o & Eo & Hco).
        { destruct Hn' as [[?|?%elem_of_list_singleton]%elem_of_app|?]; [by left|done|by right]. }
        exists o. rewrite list_lookup_insert_ne by done. split; [done|]. by eapply conv_grows.
  - cbn beta. tauto.
Qed.

(* ---- outputs ---- *)
Lemma conv_pos_spec R t (fs : list signal) d : reachable d -> outs d = [] -> npo d = 0 ->
  (forall f, f ∈ fs -> exists o, t !! sidx f = Some o /\ conv R d o (sidx f)) ->
  wp (mapM (conv_po t) fs) d (fun _ d' => reachable d' /\ ins d' = ins d /\ npi d' = npi d /\ npo d' = length fs /\ length (outs d') = length fs /\
    forall env w, R env w -> map (sval (ev d' env)) (pos d') = map (sval w) fs).
Proof.
  intros Hr Ho Hpo Hf.
  eapply wp_mono; [apply (mapM_wp (conv_po t) (fun p _ d' => reachable d' /\ grows d d' /\ ins d' = ins d /\ npi d' = npi d /\ npo d' = length p /\ length (outs d') = length p /\
    Forall (valid d') (outs d') /\
    forall env w, R env w -> map (sval (ev d' env)) (outs d') = map (sval w) p))|].
  - split; [done|]. split; [apply grows_refl|]. do 2 (split; [done|]). rewrite Ho. done.
  - intros p f q r d' Epq (Hr' & G & Hi & Hp & Hpo' & Hlo & Hv & Hval).
    destruct (Hf f) as (o & Eo & Hc); [rewrite Epq; apply elem_of_app; right; apply elem_of_list_here|].
    destruct Hc as (g & -> & Hg & Hc).
    unfold conv_po. apply wp_bnd. eapply wp_lift; [exact Eo|]. apply wp_bnd. eapply wp_lift; [done|].
    assert (Hg' : valid d' (if scompl f then snot g else g)).
    { destruct (scompl f); [apply valid_snot|]; by eapply grows_valid. }
    apply wp_bnd. eapply wp_mono; [by apply create_po_r|]. cbn beta. intros r' d2 (R2 & K2 & I2 & O2 & P2 & Po2 & _ & _). apply wp_ret.
    assert (Eev : forall env n, ev d2 env n = ev d' env n) by (intros; unfold ev; by rewrite K2).
    split; [done|]. split.
    { eapply grows_trans; [exact G|]. split; [rewrite K2; exists []|rewrite I2; exists []|rewrite O2; by eexists]; by rewrite app_nil_r. }
    split; [congruence|]. split; [congruence|]. rewrite O2, !app_length. cbn. split; [lia|]. split; [lia|]. split.
    + apply Forall_app. assert (Hsz : size d2 = size d') by (unfold size; by rewrite K2). split.
      * eapply Forall_impl; [exact Hv|]. unfold valid. by rewrite Hsz.
      * apply Forall_singleton. unfold valid. by rewrite Hsz.
    + intros env w HR. rewrite !map_app. f_equal.
      * rewrite <- (Hval env w HR). apply map_ext. intros x. unfold sval. by rewrite Eev.
      * cbn. f_equal. unfold sval at 1. rewrite Eev. fold (sval (ev d' env) (if scompl f then snot g else g)).
        assert (Hgv : sval (ev d' env) g = w (sidx f)).
        { rewrite <- (Hc env w HR). unfold sval. by rewrite (grows_ev d d'). }
        unfold sval at 2. destruct (scompl f); [rewrite sval_snot|]; rewrite Hgv; by destruct (w (sidx f)).
  - cbn beta. intros _ d' (H1 & _ & H2 & H3 & H4 & H5 & _ & H6). do 5 (split; [done|]). intros env w HR.
    rewrite <- (H6 env w HR). unfold pos. by rewrite H4, <- H5, firstn_all.
Qed.

(* ---- the two conversions ---- *)
Lemma leaves_of_conv R d t l : (forall c, c ∈ l -> exists o, t !! c = Some o /\ conv R d o c) -> Forall2 (conv R d) (leaves_of t l) l.
Proof.
  intros H. unfold leaves_of. induction l as [|c l IH]; [constructor|]. cbn [map]. constructor.
  - destruct (H c) as (o & -> & Hc); [apply elem_of_list_here|]. done.
  - apply IH. intros c' Hc'. apply H. by apply elem_of_list_further.
Qed.

Lemma convert_klut_spec nb s : 0 < nb -> kreachable s -> knpi s = length (kins s) ->
  exists d, convert_klut_to_aig nb s = Some d /\ reachable d /\ npi d = knpi s /\ length (ins d) = npi d /\
    npo d = length (kpos s) /\ length (outs d) = npo d /\ forall env l, kcomputes s env l <-> computes d env l.
Proof.
  intros Hnb Rs Hci. pose proof (kreachable_wf s Rs) as W. set (R := kvaluation s).
  pose proof (kw_size s W) as Hsz.
  set (t0 := <[1 := Some (Sig 0 true)]> (<[0 := Some (Sig 0 false)]> (repeat (@None signal) (ksize s)))).
  assert (Ht0 : length t0 = ksize s) by (unfold t0; by rewrite !insert_length, repeat_length).
  assert (T0 : t0 !! 0 = Some (Some (Sig 0 false))).
  { unfold t0. rewrite list_lookup_insert_ne by done. rewrite list_lookup_insert; [done|]. rewrite repeat_length. lia. }
  assert (T1 : t0 !! 1 = Some (Some (Sig 0 true))).
  { unfold t0. rewrite list_lookup_insert; [done|]. rewrite insert_length, repeat_length. lia. }
  assert (Tn : forall n, 1 < n -> n < ksize s -> t0 !! n = Some None).
  { intros n H1 H2. unfold t0. rewrite !list_lookup_insert_ne by lia. by apply lookup_repeat_lt. }
  assert (Ep : kpis s = kins s) by (unfold kpis; rewrite Hci; by rewrite firstn_all).
  assert (HH : wp (convert_klut_m s) (aig_init_n nb) (fun _ d => reachable d /\ npi d = knpi s /\ length (ins d) = npi d /\
    npo d = length (kpos s) /\ length (outs d) = npo d /\ forall env w, R env w -> map (sval (ev d env)) (pos d) = map w (kpos s))).
  { unfold convert_klut_m. fold t0. rewrite Ep. apply wp_bnd.
    eapply wp_mono; [apply (conv_pis_spec R nb (ksize s) t0 (kins s)); try done|].
    - apply W.
    - intros n [k Hk]%elem_of_list_lookup. destruct (kw_in s W k n Hk) as (H1 & x & Hx & _). apply Tn; [done|]. by apply lookup_lt_Some in Hx.
    - intros n o Ho. pose proof (lookup_lt_Some _ _ _ Ho) as Hlt. assert (wf (aig_init_n nb)) by (apply reachable_wf; by constructor).
      destruct n as [|[|n]].
      + rewrite T0 in Ho. injection Ho as <-. eexists. split; [done|]. split; [unfold valid, size; cbn; lia|]. intros env w HR.
        rewrite (kv_0 _ _ _ HR). by apply (sval_const _ env false).
      + rewrite T1 in Ho. injection Ho as <-. eexists. split; [done|]. split; [unfold valid, size; cbn; lia|]. intros env w HR.
        rewrite (kv_1 _ _ _ HR). by apply (sval_const _ env true).
      + rewrite Tn in Ho; [done|lia|lia].
    - intros env w k n HR. apply (kv_in _ _ _ HR).
    - cbn beta. intros t d (Rd & Ht & Hi & Hp & Ho & Hpo & Hc).
      unfold kgates. rewrite sieve_spec; cycle 1.
      { intros n [H1 H2]%elem_of_seq. unfold kis_ci. destruct (lookup_lt_is_Some_2 (kn s) n) as [x Hx]; [unfold ksize in *; lia|]. rewrite Hx. cbn. eauto. }
      set (P := fun n => (ci ← kis_ci s n; Some (negb ci)) = Some true). set (gs := filter P (seq 2 (ksize s - 2))).
      assert (Hgs : forall n, n ∈ gs <-> 1 < n /\ exists x, kn s !! n = Some x /\ isci x = false).
      { intros n. unfold gs. rewrite elem_of_list_filter, elem_of_seq. unfold P. split.
        - intros [H [H1 H2]]. split; [lia|]. destruct (lookup_lt_is_Some_2 (kn s) n) as [x Hx]; [unfold ksize in *; lia|]. exists x. split; [done|].
          rewrite (kis_ci_isci _ _ _ Hx) in H. cbn in H. by destruct (isci x).
        - intros (H1 & x & Hx & Hci'). pose proof (lookup_lt_Some _ _ _ Hx). unfold ksize in *. split; [|lia]. rewrite (kis_ci_isci _ _ _ Hx), Hci'. done. }
      apply wp_bnd, (wp_lift _ gs); [done|]. apply wp_bnd. eapply wp_mono.
      { apply (foldM_wp (kconv_gate s) (fun p t d' => reachable d' /\ ext d d' /\ length t = ksize s /\
          forall n, n < 2 \/ n ∈ kins s \/ n ∈ p -> exists o, t !! n = Some o /\ conv R d' o n)).
        - split; [done|]. split; [apply ext_refl|]. split; [done|]. intros n [Hn|[Hn|Hn]]; [|by apply Hc; left|by apply elem_of_nil in Hn].
          apply Hc. right. destruct n as [|[|n]]; [eauto|eauto|lia].
        - intros p n q t' d' Eg (R' & E' & L' & C').
          assert (Hn : n ∈ gs) by (rewrite Eg; apply elem_of_app; right; apply elem_of_list_here).
          apply Hgs in Hn as (Hn1 & x & Hx & Hxci). destruct (kw_gate s W n x Hn1 Hx Hxci) as (Hch & f & Hf & Hwf & Hnv).
          unfold kconv_gate. apply wp_bnd, (wp_lift _ x); [done|]. apply wp_bnd, (wp_lift _ f); [unfold knode_function; by rewrite Hx|].
          apply wp_bnd. eapply wp_mono; [apply (sop_to_aig_spec R d' _ (kch x)); [done|done|done|]|].
          + apply leaves_of_conv. intros c Hcx. rewrite Forall_forall in Hch. specialize (Hch c Hcx).
            apply C'. destruct (decide (c < 2)); [by left|]. right.
            pose proof (lookup_lt_Some _ _ _ Hx) as Hlt. destruct (lookup_lt_is_Some_2 (kn s) c) as [y Hy]; [lia|].
            destruct (isci y) eqn:Ey.
            * left. eapply (kw_ci s W c y); [lia|done|done].
            * right. eapply (sorted_before P 2 (ksize s - 2) p n q c); [exact Eg| |lia]. apply Hgs. split; [lia|]. eauto.
          + cbn beta. intros g d2 (R2 & E2 & V2 & Val2). apply wp_ret. split; [done|]. split; [by eapply ext_trans|]. split; [by rewrite insert_length|].
            intros c Hcc. destruct (decide (c = n)) as [->|Hne].
            * exists (Some g). rewrite list_lookup_insert by (rewrite L'; by eapply lookup_lt_Some). split; [done|]. exists g. split; [done|]. split; [done|].
              intros env w HR. rewrite (Val2 env w HR). symmetry. unfold R in HR. apply (kv_gate _ _ _ HR); [done|done| |done].
              by rewrite (kis_ci_isci _ _ _ Hx), Hxci.
            * destruct (C' c) as (o & Eo & Hco).
              { destruct Hcc as [?|[?|[?|?%elem_of_list_singleton]%elem_of_app]]; [by left|by right; left|by right; right|done]. }
              exists o. rewrite list_lookup_insert_ne by done. split; [done|]. eapply conv_grows; [by apply ext_grows|done]. }
      cbn beta. intros t' d' (R' & E' & L' & C').
      assert (Hall : forall n, n < ksize s -> exists o, t' !! n = Some o /\ conv R d' o n).
      { intros n Hn. apply C'. destruct (decide (n < 2)); [by left|]. right. destruct (lookup_lt_is_Some_2 (kn s) n Hn) as [x Hx].
        destruct (isci x) eqn:Ex; [left; eapply (kw_ci s W n x); [lia|done|done]|]. right. apply Hgs. split; [lia|]. eauto. }
      pose proof (conv_pos_spec R t' (map (fun f => Sig f false) (kpos s)) d') as HP.
      assert (Emap : mapM (fun f => conv_po t' (Sig f false)) (kpos s) = mapM (conv_po t') (map (fun f => Sig f false) (kpos s))).
      { generalize (kpos s). intros l. induction l as [|f l IH]; [done|]. cbn. by rewrite IH. }
      rewrite Emap. apply wp_bnd. eapply wp_mono; [apply HP; [done| | |]|].
      + by rewrite (ext_outs _ _ E').
      + by rewrite (ext_npo _ _ E').
      + intros f Hf. apply elem_of_list_fmap in Hf as (x & -> & Hx). apply Hall. cbn. pose proof (kw_out s W) as HO. rewrite Forall_forall in HO. apply HO.
        unfold kpos in Hx. by apply (take_elem _ (knpo s)).
      + cbn beta. intros _ d2 (R2 & I2 & P2 & Po2 & O2 & V2). apply wp_ret. rewrite map_length in *. split; [done|].
        assert (npi d2 = knpi s) by (rewrite P2, (ext_npi _ _ E'), Hp; done). split; [done|].
        split; [rewrite I2, (ext_ins _ _ E'), Hi; congruence|]. split; [done|]. split; [congruence|].
        intros env w HR. rewrite (V2 env w HR), map_map. apply map_ext. intros a. unfold sval. cbn. by rewrite xorb_false_r. }
  apply wp_elim in HH as (r & d & E & Rd & Hp & Hi & Hpo & Ho & Hval). exists d. unfold convert_klut_to_aig. rewrite E. cbn [mbind option_bind].
  split; [done|]. do 5 (split; [done|]). intros env l. pose proof (reachable_wf d Rd) as Wd. split.
  - intros (w & V & ->). exists (ev d env). split; [by apply ev_valuation|]. symmetry. by apply Hval.
  - intros Hl. destruct (kvaluation_exists s env W) as [w V]. exists w. split; [done|].
    apply (computes_unique d env); [by apply wf_network|done|]. exists (ev d env). split; [by apply ev_valuation|]. symmetry. by apply Hval.
Qed.

Lemma gates_filter s : network s -> alive s -> exists (P : nat -> Prop) (_ : forall x, Decision (P x)),
  gates s = Some (filter P (seq 1 (size s - 1))) /\ forall n, n ∈ filter P (seq 1 (size s - 1)) <-> is_gate s n.
Proof.
  intros W Ha. destruct (gates_spec s W Ha) as (gs & E & _ & H). unfold gates in *.
  rewrite sieve_spec in E.
  - injection E as <-. eexists _, _. split; [|exact H]. rewrite sieve_spec; [done|].
    intros n [H1 H2]%elem_of_seq. unfold is_ci, is_dead.
    destruct (lookup_lt_is_Some_2 (ks s) n) as [[a b] E]; [unfold size in *; lia|]. rewrite E. cbn.
    destruct (lookup_lt_is_Some_2 (fo s) n) as [h Hh]; [rewrite (net_fo _ W); lia|]. rewrite Hh. cbn. eauto.
  - intros n [H1 H2]%elem_of_seq. unfold is_ci, is_dead.
    destruct (lookup_lt_is_Some_2 (ks s) n) as [[a b] E']; [unfold size in *; lia|]. rewrite E'. cbn.
    destruct (lookup_lt_is_Some_2 (fo s) n) as [h Hh]; [rewrite (net_fo _ W); lia|]. rewrite Hh. cbn. eauto.
Qed.

Lemma gates_before s gs p n q c : network s -> alive s -> gates s = Some gs -> gs = p ++ n :: q -> is_gate s c -> c < n -> c ∈ p.
Proof.
  intros W Ha E Eg Hc Hlt. destruct (gates_filter s W Ha) as (P & D & E' & H). rewrite E in E'. injection E' as ->.
  eapply (sorted_before P); [exact Eg| |done]. by apply H.
Qed.

Lemma convert_mapped_spec nb s m : 0 < nb -> network s -> alive s -> npi s = length (ins s) -> cover s m lt ->
  exists d, convert_mapped_graph_to_aig nb s m = Some d /\ reachable d /\ npi d = npi s /\ length (ins d) = npi d /\
    npo d = length (pos s) /\ length (outs d) = npo d /\ forall env l, computes s env l <-> computes d env l.
Proof.
  intros Hnb W Ha Hci [Hm Hpo Hcell]. set (R := valuation s). pose proof (net_size s W) as Hsz.
  set (t0 := <[0 := Some (Sig 0 false)]> (repeat (@None signal) (size s))).
  assert (Ht0 : length t0 = size s) by (unfold t0; by rewrite !insert_length, repeat_length).
  assert (T0 : t0 !! 0 = Some (Some (Sig 0 false))).
  { unfold t0. rewrite list_lookup_insert; [done|]. rewrite repeat_length. lia. }
  assert (Tn : forall n, 0 < n -> n < size s -> t0 !! n = Some None).
  { intros n H1 H2. unfold t0. rewrite !list_lookup_insert_ne by lia. by apply lookup_repeat_lt. }
  assert (Ep : pis s = ins s) by (unfold pis; rewrite Hci; by rewrite firstn_all).
  pose proof (net_ins_nodup s W) as Hnd. apply NoDup_cons in Hnd as [Hn0 Hnd].
  pose proof (net_ins_valid s W) as Hiv. rewrite Forall_forall in Hiv.
  assert (HH : wp (convert_mapped_m s m) (aig_init_n nb) (fun _ d => reachable d /\ npi d = npi s /\ length (ins d) = npi d /\
    npo d = length (pos s) /\ length (outs d) = npo d /\ forall env w, R env w -> map (sval (ev d env)) (pos d) = map (sval w) (pos s))).
  { unfold convert_mapped_m. fold t0. rewrite Ep. apply wp_bnd.
    eapply wp_mono; [apply (conv_pis_spec R nb (size s) t0 (ins s)); try done|].
    - intros n Hn. apply Tn; [|by apply Hiv]. destruct n; [done|lia].
    - intros n o Ho. pose proof (lookup_lt_Some _ _ _ Ho) as Hlt. assert (wf (aig_init_n nb)) by (apply reachable_wf; by constructor).
      destruct n as [|n].
      + rewrite T0 in Ho. injection Ho as <-. eexists. split; [done|]. split; [unfold valid, size; cbn; lia|]. intros env w HR.
        rewrite (val_const _ _ _ HR). by apply (sval_const _ env false).
      + rewrite Tn in Ho; [done|lia|lia].
    - intros env w k n HR. apply (val_input _ _ _ HR).
    - cbn beta. intros t d (Rd & Ht & Hi & Hp & Ho & Hpo' & Hc).
      destruct (gates_spec s W Ha) as (gs & Egs & Hgnd & Hgs).
      apply wp_bnd, (wp_lift _ gs); [done|]. apply wp_bnd. eapply wp_mono.
      { apply (foldM_wp (mconv_gate m) (fun p t d' => reachable d' /\ ext d d' /\ length t = size s /\
          forall n, n = 0 \/ n ∈ ins s \/ (root s m n /\ n ∈ p) -> exists o, t !! n = Some o /\ conv R d' o n)).
        - split; [done|]. split; [apply ext_refl|]. split; [done|]. intros n [->|[Hn|[_ Hn]]]; [|by apply Hc; left|by apply elem_of_nil in Hn].
          apply Hc. right. eauto.
        - intros p n q t' d' Eg (R' & E' & L' & C').
          assert (Hn : n ∈ gs) by (rewrite Eg; apply elem_of_app; right; apply elem_of_list_here).
          apply Hgs in Hn as Hng. pose proof Hng as (a & b & Hk & _). pose proof (lookup_lt_Some _ _ _ Hk) as Hlt.
          destruct (lookup_lt_is_Some_2 (mm m) n) as [x Hx]; [unfold size in *; lia|].
          unfold mconv_gate. apply wp_bnd. eapply wp_lift; [unfold is_cell_root; rewrite Hx; reflexivity|].
          destruct (negb (bool_decide (x = 0%N))) eqn:Ex.
          2:{ apply wp_ret. split; [done|]. split; [done|]. split; [done|]. intros c Hcc. apply C'.
              destruct Hcc as [?|[?|[Hr [?|Hcn%elem_of_list_singleton]%elem_of_app]]]; [by left|by right; left|by right; right|]. subst c.
              destruct Hr as [_ Hr]. unfold is_cell_root in Hr. rewrite Hx in Hr. cbn in Hr. congruence. }
          assert (Hr : root s m n) by (split; [done|]; unfold is_cell_root; rewrite Hx; cbn; by rewrite Ex).
          destruct (Hcell n Hr) as (l & f & El & Ef & Hwf & Hnv & Hlp & Hval).
          apply wp_bnd, (wp_lift _ f); [done|]. apply wp_bnd, (wp_lift _ l); [done|].
          apply wp_bnd. eapply wp_mono; [apply (sop_to_aig_spec R d' _ l); [done|done|done|]|].
          + apply leaves_of_conv. intros c Hcx. destruct (Hlp c Hcx) as [Hpr Hcl]. apply C'.
            destruct Hpr as [?|[?|Hrc]]; [by left|by right; left|]. right. right. split; [done|].
            eapply (gates_before s gs); [done|done|done|exact Eg|apply Hrc|done].
          + cbn beta. intros g d2 (R2 & E2 & V2 & Val2). apply wp_ret. split; [done|]. split; [by eapply ext_trans|]. split; [by rewrite insert_length|].
            intros c Hcc. destruct (decide (c = n)) as [->|Hne].
            * exists (Some g). rewrite list_lookup_insert by (rewrite L'; done). split; [done|]. exists g. split; [done|]. split; [done|].
              intros env w HR. rewrite (Val2 env w HR). symmetry. by apply (Hval env).
            * destruct (C' c) as (o & Eo & Hco).
              { destruct Hcc as [?|[?|[? [?|?%elem_of_list_singleton]%elem_of_app]]]; [by left|by right; left|by right; right|done]. }
              exists o. rewrite list_lookup_insert_ne by done. split; [done|]. eapply conv_grows; [by apply ext_grows|done]. }
      cbn beta. intros t' d' (R' & E' & L' & C').
      apply wp_bnd. eapply wp_mono; [apply (conv_pos_spec R t' (pos s) d'); [done| | |]|].
      + by rewrite (ext_outs _ _ E').
      + by rewrite (ext_npo _ _ E').
      + intros f Hf. apply C'. destruct (Hpo f Hf) as [?|[?|Hr]]; [by left|by right; left|]. right. right. split; [done|]. apply Hgs, Hr.
      + cbn beta. intros _ d2 (R2 & I2 & P2 & Po2 & O2 & V2). apply wp_ret. split; [done|].
        assert (npi d2 = npi s) by (rewrite P2, (ext_npi _ _ E'), Hp; done). split; [done|].
        split; [rewrite I2, (ext_ins _ _ E'), Hi; congruence|]. split; [done|]. split; [congruence|]. done. }
  apply wp_elim in HH as (r & d & E & Rd & Hp & Hi & Hpo' & Ho & Hval). exists d. unfold convert_mapped_graph_to_aig. rewrite E. cbn [mbind option_bind].
  split; [done|]. do 5 (split; [done|]). intros env l. pose proof (reachable_wf d Rd) as Wd. split.
  - intros (w & V & ->). exists (ev d env). split; [by apply ev_valuation|]. symmetry. by apply Hval.
  - intros Hl. destruct (net_valuation s env W) as [w V]. exists w. split; [done|].
    apply (computes_unique d env); [by apply wf_network|done|]. exists (ev d env). split; [by apply ev_valuation|]. symmetry. by apply Hval.
Qed.
