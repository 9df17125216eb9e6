From stdpp Require Import gmap.
From Verif Require Import Base Aig AigSem AigHash AigProofs AigApi AigReach NetProofs SubstProofs Clean Tt TtProofs Npn NpnProofs Cnf CnfProofs Sim SimProofs PropSim NodeRewriting.
From Verif Require AigerProofs.

(* ---- sizes ---- *)
Lemma create_and_size s a b : wp (create_and a b) s (fun _ _ => True) -> wp (create_and a b) s (fun _ s' => size s' <= S (size s)).
Proof.
  intros (f & s' & E & _)%wp_elim. unfold wp. rewrite E. clear -E. unfold create_and in E. destruct (order a b) as [x y].
  case_decide as Q1; [injection E as <- <-; lia|]. case_decide as Q2; [injection E as <- <-; lia|].
  apply bind_Some in E as (h & _ & E). case_decide as Q3; [|injection E as <- <-; lia].
  unfold new_and in E. apply bind_Some in E as (s1 & E1 & E). apply bind_Some in E as (pa & _ & E).
  apply bind_Some in E as (pb & _ & E). apply bind_Some in E as (s3 & E3 & E). apply bind_Some in E as (s4 & E4 & E).
  injection E as <- <-. apply hash_insert_frame in E1 as [Hs1 _].
  unfold incr_fanout in E3, E4. apply bind_Some in E3 as (? & _ & [= <-]). apply bind_Some in E4 as (? & _ & [= <-]).
  unfold size in *. cbn. destruct Hs1 as [Hk _]. rewrite Hk. cbn. rewrite app_length. cbn. lia.
Qed.
Lemma create_and_rs s a b : reachable s -> valid s a -> valid s b ->
  wp (create_and a b) s (fun f s' => makes s (fun env => sval (ev s env) a && sval (ev s env) b) f s' /\ size s' <= S (size s)).
Proof.
  intros Hr Ha Hb. pose proof (create_and_r s a b Hr Ha Hb) as H.
  assert (H' : wp (create_and a b) s (fun _ _ => True)) by (by eapply wp_mono).
  apply create_and_size in H'. unfold wp in *. destruct (create_and a b s) as [[f s']|]; done.
Qed.
Lemma create_xor_rs s a b : reachable s -> valid s a -> valid s b ->
  wp (create_xor a b) s (fun f s' => makes s (fun env => xorb (sval (ev s env) a) (sval (ev s env) b)) f s' /\ size s' <= 3 + size s).
Proof.
  intros Hr Ha Hb. pose proof (create_xor_r s a b Hr Ha Hb) as H.
  assert (H' : wp (create_xor a b) s (fun _ s' => size s' <= 3 + size s)).
  { unfold create_xor. apply wp_bnd.
    eapply wp_mono; [apply create_and_rs; [done|exact Ha|exact Hb]|]. cbn beta. intros c1 s1 ((R1 & X1 & V1 & _) & S1).
    apply wp_bnd. eapply wp_mono; [apply create_and_rs; [done| |]|].
    1: exact (ext_valid s s1 b X1 Hb).
    1: exact (ext_valid s s1 a X1 Ha).
    cbn beta. intros c2 s2 ((R2 & X2 & V2 & _) & S2).
    apply wp_bnd. eapply wp_mono; [apply create_and_rs; [done| |]|].
    - exact (ext_valid s1 s2 c1 X2 V1).
    - exact V2.
    - cbn beta. intros f s3 (_ & S3). apply wp_ret. lia. }
  unfold wp in *. destruct (create_xor a b s) as [[f s']|]; done.
Qed.

(* ---- decoding ---- *)
Lemma pairs_length l : length (pairs l) = length l / 2.
Proof.
  assert (G : forall k l, length l <= k -> length (pairs l) = length l / 2).
  { induction k as [|k IH]; intros m Hm; [destruct m; [done|cbn in Hm; lia]|]. destruct m as [|a [|b m]]; [done|done|].
    cbn [pairs length]. rewrite IH by (cbn in Hm; lia). replace (S (S (length m))) with (1 * 2 + length m) by lia.
    rewrite Nat.div_add_l by lia. lia. }
  by apply (G (length l)).
Qed.
Lemma pairs_lookup l i a b : l !! (2 * i) = Some a -> l !! (2 * i + 1) = Some b -> pairs l !! i = Some (a, b).
Proof.
  revert l. induction i as [|i IH]; intros l Ha Hb.
  - destruct l as [|x [|y l]]; [done|done|]. cbn in *. congruence.
  - replace (2 * S i) with (S (S (2 * i))) in Ha by lia. replace (2 * S i + 1) with (S (S (2 * i + 1))) in Hb by lia.
    destruct l as [|x [|y l]]; [done|done|]. cbn [lookup list_lookup pairs] in *. by apply IH.
Qed.

Lemma head_fields ng np : np < 256 ->
  N.to_nat (N.land (N.shiftl (N.of_nat ng) 16 + N.shiftl (N.of_nat np) 8 + 4) 255) = 4 /\
  N.to_nat (N.land (N.shiftr (N.shiftl (N.of_nat ng) 16 + N.shiftl (N.of_nat np) 8 + 4) 8) 255) = np.
Proof.
  intros Hn. rewrite !N.shiftl_mul_pow2, N.shiftr_div_pow2. change 255%N with (N.ones 8). rewrite !N.land_ones.
  change (2 ^ 8)%N with 256%N. change (2 ^ 16)%N with 65536%N. split.
  - rewrite <- (N.mod_unique (N.of_nat ng * 65536 + N.of_nat np * 256 + 4) 256 (N.of_nat ng * 256 + N.of_nat np) 4) by lia. done.
  - rewrite <- (N.div_unique (N.of_nat ng * 65536 + N.of_nat np * 256 + 4) 256 (N.of_nat ng * 256 + N.of_nat np) 4) by lia.
    rewrite <- (N.mod_unique (N.of_nat ng * 256 + N.of_nat np) 256 (N.of_nat ng) (N.of_nat np)) by lia. lia.
Qed.

Record decoded (db : aig) : Prop := {
  de_reach : reachable db;
  de_ins : ins db = [1; 2; 3; 4];
  de_npi : npi db = 4
}.

Lemma pis4 b : 0 < b -> wp (mapM (fun _ => create_pi) (seq 0 4)) (aig_init_n b) (fun fs s =>
  reachable s /\ ins s = [1; 2; 3; 4] /\ npi s = 4 /\ size s = 5 /\ length fs = 4 /\ Forall (valid s) fs /\ outs s = []).
Proof.
  intros Hb. cbn [seq mapM].
  pose proof (create_pi_r (aig_init_n b) (reach_init b Hb)) as H. 
  apply wp_bnd. eapply wp_mono; [exact H|]. clear H. intros f1 s1 (R1 & -> & K1 & I1 & O1 & N1 & _ & _).
  apply wp_bnd. apply wp_bnd. eapply wp_mono; [by apply create_pi_r|]. intros f2 s2 (R2 & -> & K2 & I2 & O2 & N2 & _ & _).
  apply wp_bnd. apply wp_bnd. eapply wp_mono; [by apply create_pi_r|]. intros f3 s3 (R3 & -> & K3 & I3 & O3 & N3 & _ & _).
  apply wp_bnd. apply wp_bnd. eapply wp_mono; [by apply create_pi_r|]. intros f4 s4 (R4 & -> & K4 & I4 & O4 & N4 & _ & _).
  apply wp_bnd. repeat apply wp_ret.
  assert (Z1 : size s1 = 2) by (unfold size; by rewrite K1).
  assert (Z2 : size s2 = 3) by (unfold size in *; rewrite K2, app_length; cbn; lia).
  assert (Z3 : size s3 = 4) by (unfold size in *; rewrite K3, app_length; cbn; lia).
  assert (Z4 : size s4 = 5) by (unfold size in *; rewrite K4, app_length; cbn; lia).
  split; [done|]. split; [rewrite I4, I3, I2, I1, Z1, Z2, Z3; done|]. split; [rewrite N4, N3, N2, N1; done|].
  split; [done|]. split; [done|]. split; [|rewrite O4, O3, O2, O1; done].
  unfold valid. rewrite Z4, Z1, Z2, Z3. repeat constructor; cbn; lia.
Qed.

Lemma db_lit_ok s sigs l : Forall (valid s) sigs -> (l < 2 * N.of_nat (length sigs))%N -> exists f, db_lit sigs l = Some f /\ valid s f.
Proof.
  intros Hs Hl. unfold db_lit. destruct (lookup_lt_is_Some_2 sigs (N.to_nat (N.div2 l))) as [f Hf].
  { rewrite N.div2_div. pose proof (N.div_lt_upper_bound l 2 (N.of_nat (length sigs)) ltac:(lia) Hl). lia. }
  rewrite Hf. cbn. eexists. split; [done|]. pose proof (proj1 (Forall_lookup _ _) Hs _ _ Hf). by destruct (N.odd l).
Qed.

Lemma decode_ok b vs : 0 < b -> db_valid vs ->
  wp (decode_data_rewriting vs) (aig_init_n b) (fun _ db => decoded db /\ size db <= 5 + 3 * length vs /\ length (outs db) <= length vs).
Proof.
  intros Hb (ng & np & Hh & Hnp & Hlen & Hg & Hp). destruct (head_fields ng np Hnp) as [F1 F2].
  unfold decode_data_rewriting. apply wp_bnd. eapply wp_lift; [unfold db_num_pis; rewrite Hh; cbn [mbind option_bind]; by rewrite F1|].
  apply wp_bnd. eapply wp_mono; [by apply pis4|]. cbn beta. intros fs s0 (R0 & I0 & N0 & Z0 & L0 & V0 & O0).
  unfold insert_into_network. apply wp_bnd. eapply wp_lift; [unfold db_num_pis; rewrite Hh; cbn [mbind option_bind]; by rewrite F1|].
  rewrite decide_True by done. apply wp_bnd.
  assert (Hpos : db_num_pos vs = Some np) by (unfold db_num_pos; rewrite Hh; cbn [mbind option_bind]; by rewrite F2).
  destruct vs as [|h vs]; [done|]. cbn [tail length] in *.
  set (body := take (2 * ng) vs).
  assert (Hbl : length body = 2 * ng) by (unfold body; rewrite take_length; lia).
  assert (Hgs : db_gates (h :: vs) = Some (pairs body)).
  { unfold db_gates. rewrite Hpos. cbn [mbind option_bind length tail]. rewrite decide_True by lia.
    replace (S (length vs) - np - 1) with (2 * ng) by lia. fold body. rewrite Hbl.
    replace (Nat.even (2 * ng)) with true; [done|]. symmetry. apply Nat.even_spec. by exists ng. }
  eapply wp_lift; [exact Hgs|].
  assert (Hpl : length (pairs body) = ng) by (rewrite pairs_length, Hbl, Nat.mul_comm; by apply Nat.div_mul).
  apply wp_bnd. eapply wp_mono.
  { apply (foldM_wp db_gate (fun done sigs s => reachable s /\ ext s0 s /\ length sigs = 5 + length done /\ Forall (valid s) sigs /\ size s <= 5 + 3 * length done)).
    - split; [done|]. split; [apply ext_refl|]. split; [cbn; by rewrite L0|]. split; [|cbn; lia].
      constructor; [unfold valid; cbn; lia|done].
    - intros p [x y] q sigs s E (R & X & L & V & Z).
      assert (Hi : length p < ng) by (rewrite <- Hpl, E, app_length; cbn; lia).
      destruct (Hg (length p) Hi) as (a & c & Ha & Hc & Hne & La & Lc).
      assert (Ep : pairs body !! length p = Some (a, c)).
      { apply pairs_lookup; unfold body; rewrite lookup_take by lia.
        - replace (1 + 2 * length p) with (S (2 * length p)) in Ha by lia. exact Ha.
        - replace (2 + 2 * length p) with (S (2 * length p + 1)) in Hc by lia. exact Hc. }
      rewrite E, list_lookup_middle in Ep by done. injection Ep as -> ->.
      unfold db_gate. cbn [fst snd]. rewrite decide_False by done.
      destruct (db_lit_ok s sigs a V) as (fa & Ea & Va); [rewrite L; lia|].
      destruct (db_lit_ok s sigs c V) as (fc & Ec & Vc); [rewrite L; lia|].
      apply wp_bnd. eapply wp_lift; [exact Ea|]. apply wp_bnd. eapply wp_lift; [exact Ec|]. apply wp_bnd.
      rewrite app_length. cbn [length].
      destruct (c <? a)%N.
      + eapply wp_mono; [by apply create_xor_rs|]. cbn beta. intros f s' ((R' & X' & V' & _) & Z'). apply wp_ret.
        split; [done|]. split; [by eapply ext_trans|]. split; [rewrite app_length; cbn; lia|]. split; [|lia].
        apply Forall_app. split; [|by constructor]. eapply Forall_impl; [exact V|]. intros g Hg'. by apply (ext_valid s).
      + eapply wp_mono; [by apply create_and_rs|]. cbn beta. intros f s' ((R' & X' & V' & _) & Z'). apply wp_ret.
        split; [done|]. split; [by eapply ext_trans|]. split; [rewrite app_length; cbn; lia|]. split; [|lia].
        apply Forall_app. split; [|by constructor]. eapply Forall_impl; [exact V|]. intros g Hg'. by apply (ext_valid s). }
  cbn beta. intros sigs s (R & X & L & V & Z). rewrite Hpl in L, Z.
  assert (Hps : db_pos (h :: vs) = Some (drop (2 * ng) vs)).
  { unfold db_pos. rewrite Hpos. cbn [mbind option_bind length]. rewrite decide_True by lia.
    replace (S (length vs) - np) with (S (2 * ng)) by lia. done. }
  apply wp_bnd. eapply wp_lift; [exact Hps|].
  eapply wp_mono.
  { apply (foldM_wp _ (fun done _ s' => reachable s' /\ ks s' = ks s /\ ins s' = ins s /\ npi s' = npi s /\ length (outs s') = length done)).
    - split; [done|]. split; [done|]. split; [done|]. split; [done|]. by rewrite (ext_outs _ _ X), O0.
    - intros p l q [] s' E (R' & K' & I' & N' & O').
      assert (Hi : length p < np).
      { pose proof (f_equal length E) as El. rewrite drop_length, app_length in El. cbn [length] in El. lia. }
      destruct (Hp (length p) Hi) as (a & Ha & La). replace (1 + 2 * ng + length p) with (S (2 * ng + length p)) in Ha by lia.
      change (vs !! (2 * ng + length p) = Some a) in Ha. rewrite <- lookup_drop, E, list_lookup_middle in Ha by done. injection Ha as ->.
      assert (V' : Forall (valid s') sigs) by (eapply Forall_impl; [exact V|]; intros g; unfold valid, size; by rewrite K').
      destruct (db_lit_ok s' sigs a V') as (fa & Ea & Va); [rewrite L; lia|].
      apply wp_bnd. eapply wp_lift; [exact Ea|]. apply wp_bnd. eapply wp_mono; [by apply create_po_r|].
      cbn beta. intros r s'' (R'' & K'' & I'' & O'' & N'' & _). apply wp_ret.
      split; [done|]. split; [congruence|]. split; [congruence|]. split; [congruence|]. rewrite O'', !app_length. cbn. lia. }
  cbn beta. intros _ db (R' & K' & I' & N' & O'). rewrite drop_length in O'. split.
  - split; [done|rewrite I', (ext_ins _ _ X); done|rewrite N', (ext_npi _ _ X); done].
  - unfold size in *. rewrite K'. cbn [length]. lia.
Qed.

(* ---- the classes ---- *)
Definition class_ok (z : nat) (sims : list tt) (m : classes) : Prop := Forall (fun c =>
  Forall (fun f => sidx f < z /\ exists t, sims !! sidx f = Some t /\ c.1 = tt_not_if t (scompl f)) c.2) m.
Lemma class_find_ok z sims m r l : class_ok z sims m -> class_find m r = Some l ->
  Forall (fun f => sidx f < z /\ exists t, sims !! sidx f = Some t /\ r = tt_not_if t (scompl f)) l.
Proof.
  induction 1 as [|[q k] m Hq Hm IH]; [done|]. cbn. case_decide as Q; [|done]. intros [= <-]. by subst q.
Qed.
Lemma class_add_ok z sims m r f : class_ok z sims m -> (sidx f < z /\ exists t, sims !! sidx f = Some t /\ r = tt_not_if t (scompl f)) ->
  class_ok z sims (class_add m r f).
Proof.
  intros Hm Hf. induction Hm as [|[q k] m Hq Hm IH].
  { constructor; [|constructor]. by constructor. }
  cbn. case_decide as Q; [|by constructor]. subst q. constructor; [|done]. apply Forall_app. split; [exact Hq|by constructor].
Qed.

Lemma own_total t : nv t = 4 -> exists b, own_representative t = Some b.
Proof.
  intros Ht. destruct (canon_total t) as [[[r ph] perm] E]; [lia|]. unfold own_representative. rewrite E. by eexists.
Qed.

(* what the constructor establishes *)
Record db_ok (d : aig * classes) : Prop := {
  do_dec : decoded d.1;
  do_cls : forall r l, class_find d.2 r = Some l -> Forall (fun f => sidx f < size d.1 /\
    forall x, tt_eval r x = sval (ev d.1 x) f) l
}.

Lemma generate_ok b vs : 0 < b -> (N.of_nat (length vs) < 2 ^ 26)%N -> db_valid vs ->
  exists d, generate_db b vs = Some d /\ db_ok d.
Proof.
  intros Hb Hlen Hv. pose proof (decode_ok b vs Hb Hv) as H. apply wp_elim in H as ([] & db & Ed & Hd & Hz & Ho).
  destruct Hd as [R I N4]. unfold generate_db. rewrite Ed. cbn [mbind option_bind].
  assert (Hrefs : forall n, (N.of_nat (references db n) < 2 ^ 31)%N).
  { intros n. pose proof (AigerProofs.references_le db n). lia. }
  destruct (C42_created_in_order db R Hrefs) as [W Ho'].
  assert (Hlive : forall n, n < size db -> is_dead db n = Some false) by (intros n Hn; by apply never_dead).
  destruct (C42_static_tt db 4 W Ho') as (vals & os & Es & _ & Hvals & _ & Hev).
  { intros f Hf (a & c & Ek & _). apply Hlive. by apply lookup_lt_Some in Ek. }
  { rewrite N4. lia. }
  rewrite Es. cbn [mbind option_bind].
  assert (Hshown : forall n, n < size db -> shown db n) by (intros n Hn; split; [done|]; intros _; by apply Hlive).
  rewrite sieve_spec.
  2: { intros n Hn. apply elem_of_seq in Hn. rewrite (Hlive n) by lia. by eexists. }
  cbn [mbind option_bind].
  set (ns := filter _ (seq 0 (size db))).
  assert (Hns : Forall (fun n => n < size db) ns).
  { apply Forall_forall. intros n Hn. apply elem_of_list_filter in Hn as [_ Hn]. apply elem_of_seq in Hn. lia. }
  assert (Hcl : forall m, class_ok (size db) vals m -> exists m', opt_fold (classify vals) m ns = Some m' /\ class_ok (size db) vals m').
  { clearbody ns. induction Hns as [|n ns Hn Hns IH]; intros m Hm; [by exists m|]. cbn [opt_fold].
    destruct (Hvals n (Hshown n Hn)) as (t & Et & Wt & Nt). unfold classify. rewrite Et. cbn [mbind option_bind].
    destruct (own_total t Nt) as [c ->]. cbn [mbind option_bind]. destruct c.
    - apply IH. apply class_add_ok; [done|]. split; [done|]; by exists t.
    - destruct (own_total (tt_not t) Nt) as [c' ->]. cbn [mbind option_bind]. destruct c'; [|by apply IH].
      apply IH. apply class_add_ok; [done|]. split; [done|]; by exists t. }
  destruct (Hcl [] ltac:(constructor)) as (m & Em & Hm). rewrite Em. cbn [mbind option_bind].
  eexists. split; [done|]. split; cbn [fst snd]; [by split|].
  intros r l E. pose proof (class_find_ok _ _ _ _ _ Hm E) as Hl. eapply Forall_impl; [exact Hl|].
  intros f (Hf & t & Et & ->).
  split; [done|]. intros x. destruct (Hvals _ (Hshown _ Hf)) as (t' & Et' & Wt & Nt). rewrite Et in Et'. injection Et' as <-.
  rewrite eval_not_if by done. unfold sval. f_equal.
  assert (HV : valuation db (inputs_of db x) (ev db x)).
  { destruct (ev_valuation db x (reachable_wf db R)) as [V1 V2 V3]. split; [done| |done]. intros k n Hk. unfold inputs_of.
    rewrite N4. rewrite decide_True; [by apply V2|]. apply lookup_lt_Some in Hk. rewrite I in Hk. cbn in Hk. lia. }
  destruct (Hev x _ HV) as [H1 _]. by apply H1; [apply Hshown|].
Qed.

(* ---- inserting a structure ---- *)
Section pad.
Context (db : aig) (D : decoded db).
(* values of the inputs of the database, for an assignment to the inputs of the
   network *)
Context (den : (nat -> bool) -> nat -> bool).

Record minv (s : aig) (m : gmap nat signal) : Prop := {
  mi_val : forall n f, m !! n = Some f -> valid s f /\ forall env, sval (ev s env) f = ev db (den env) n;
  mi_dom : forall n, n = 0 \/ n ∈ ins db -> is_Some (m !! n)
}.
Lemma minv_ext s s' m : ext s s' -> minv s m -> minv s' m.
Proof.
  intros X [V Dm]. split; [|done]. intros n f Hf. destruct (V n f Hf) as [V1 V2]. split; [by apply (ext_valid s)|].
  intros env. by rewrite (ext_sval s).
Qed.

Definition pads (s : aig) (n : nat) (r : option (signal * (aig * gmap nat signal))) : Prop := exists f s' m',
  r = Some (f, (s', m')) /\ reachable s' /\ ext s s' /\ minv s' m' /\ valid s' f /\ forall env, sval (ev s' env) f = ev db (den env) n.

Lemma padding_ok fuel n s m : n < fuel -> n < size db -> reachable s -> minv s m -> pads s n (padding db fuel n (s, m)).
Proof.
  pose proof (de_reach db D) as Rd. pose proof (reachable_wf db Rd) as Wd.
  revert n s m. induction fuel as [|fuel IH]; intros n s m Hn Hsz R I; [lia|]. cbn [padding snd].
  destruct (m !! n) as [f|] eqn:Em.
  { destruct (mi_val _ _ I n f Em) as [Vf Hf]. exists f, s, m. split; [done|]. split; [done|]. split; [apply ext_refl|]. done. }
  destruct (lookup_lt_is_Some_2 (ks db) n Hsz) as [[a b] Ek]. rewrite Ek. cbn [mbind option_bind fst snd].
  assert (Hg : n <> 0 /\ a <> b).
  { split; intros ->.
    - destruct (mi_dom _ _ I 0 (or_introl eq_refl)). congruence.
    - destruct (net_ci db (wf_network db Wd) n b Ek) as [->|Hin].
      + destruct (mi_dom _ _ I 0 (or_introl eq_refl)). congruence.
      + destruct (mi_dom _ _ I n (or_intror Hin)). congruence. }
  destruct Hg as [Hn0 Hab]. rewrite decide_False by naive_solver.
  destruct (topological db n a b Rd Ek Hab) as (T1 & T2 & T3).
  destruct (IH (sidx a) s m) as (x & s1 & m1 & E1 & R1 & X1 & I1 & V1 & H1); [lia|lia|done|done|]. rewrite E1. cbn [mbind option_bind].
  destruct (IH (sidx b) s1 m1) as (y & s2 & m2 & E2 & R2 & X2 & I2 & V2 & H2); [lia|lia|done|done|]. rewrite E2. cbn [mbind option_bind fst snd].
  pose proof (create_and_r s2 (sxor x (scompl a)) (sxor y (scompl b)) R2) as Hc.
  apply wp_elim in Hc as (f & s3 & E3 & R3 & X3 & V3 & H3); [|exact (ext_valid _ _ x X2 V1)|exact V2].
  rewrite E3. cbn [mbind option_bind].
  assert (Hv : forall env, sval (ev s3 env) f = ev db (den env) n).
  { intros env. rewrite H3. rewrite (val_gate _ _ _ (ev_valuation db (den env) Wd) n a b Ek Hn0 Hab).
    unfold sval at 3 4. rewrite <- H1, <- H2, <- (ext_sval _ _ env x X2 V1).
    unfold sval. cbn. f_equal; [by destruct (ev s2 env (sidx x)), (scompl x), (scompl a)|by destruct (ev s2 env (sidx y)), (scompl y), (scompl b)]. }
  exists f, s3, (<[n := f]> m2). split; [done|]. split; [done|]. split; [eapply ext_trans; [exact X1|]; by eapply ext_trans|].
  split; [|done]. pose proof (minv_ext _ _ _ X3 I2) as [Va Da]. split.
  - intros k g Hk. destruct (decide (k = n)) as [->|Hne].
    + rewrite lookup_insert in Hk. injection Hk as <-. done.
    + rewrite lookup_insert_ne in Hk by done. by apply Va.
  - intros k Hk. destruct (decide (k = n)) as [->|Hne]; [rewrite lookup_insert; by eexists|]. rewrite lookup_insert_ne by done. by apply Da.
Qed.

Context {C : Type} (fn : aig -> signal -> C -> option (bool * C)).
(* I: what the callback maintains; value: the function the signals compute *)
Context (s0 : aig) (value : (nat -> bool) -> bool) (neg : bool) (Inv : aig -> C -> Prop).
Context (Hgrow : forall s s' c, ext s s' -> Inv s c -> Inv s' c).
Context (Hfn : forall s f c, reachable s -> ext s0 s -> valid s f -> (forall env, sval (ev s env) f = value env) -> Inv s c ->
  exists b c', fn s f c = Some (b, c') /\ Inv s c').

Lemma candidates_ok l s m c : Forall (fun cand => sidx cand < size db /\ forall env, xorb (sval (ev db (den env)) cand) neg = value env) l ->
  reachable s -> ext s0 s -> minv s m -> Inv s c ->
  exists s' c', candidates fn db neg l s m c = Some (s', c') /\ reachable s' /\ ext s s' /\ Inv s' c'.
Proof.
  intros Hl. revert s m c. induction Hl as [|cand l [Hz Hv] Hl IH]; intros s m c R X0 I Ic.
  { exists s, c. split; [done|]. split; [done|]. split; [apply ext_refl|done]. }
  cbn [candidates].
  destruct (padding_ok (S (size db)) (sidx cand) s m) as (f & s1 & m1 & E1 & R1 & X1 & I1 & V1 & H1); [lia|done|done|done|].
  rewrite E1. cbn [mbind option_bind].
  set (g := if xorb (scompl cand) neg then snot f else f).
  destruct (Hfn s1 g c) as (b & c' & Ef & Ic'); [done|by eapply ext_trans|unfold g; by destruct (xorb _ _)| |by eapply Hgrow|].
  { intros env. rewrite <- Hv. unfold sval at 2. rewrite <- H1. unfold g, sval. destruct (xorb (scompl cand) neg) eqn:E; cbn.
    - destruct (ev s1 env (sidx f)), (scompl f), (scompl cand), neg; done.
    - destruct (ev s1 env (sidx f)), (scompl f), (scompl cand), neg; done. }
  rewrite Ef. cbn [mbind option_bind]. destruct b.
  - destruct (IH s1 m1 c') as (s' & c'' & E & R' & X' & I'); [done|by eapply ext_trans|done|done|].
    exists s', c''. split; [done|]. split; [done|]. split; [by eapply ext_trans|done].
  - exists s1, c'. done.
Qed.
End pad.

(* ---- the whole operator ---- *)
Lemma list4 {A} (l : list A) : length l = 4 -> exists a b c d, l = [a; b; c; d].
Proof. destruct l as [|a [|b [|c [|d [|]]]]]; try done. intros _. by exists a, b, c, d. Qed.

Lemma db_inputs_ok pis ph perm : length pis = 4 -> length perm = 4 -> (forall i, i < 4 -> pget perm i < 4) ->
  exists m, db_inputs pis ph perm = Some m /\ m !! 0 = Some (get_constant false) /\
   (forall i, i < 4 -> m !! S i = Some (sxor (nth (pget perm i) pis (get_constant false)) (N.testbit ph (N.of_nat (pget perm i))))) /\
   forall n f, m !! n = Some f -> n < 5.
Proof.
  intros Hp Hq Hlt. apply list4 in Hp as (f0 & f1 & f2 & f3 & ->). apply list4 in Hq as (p0 & p1 & p2 & p3 & ->).
  assert (Hnth : forall p, p < 4 -> [f0; f1; f2; f3] !! p = Some (nth p [f0; f1; f2; f3] (get_constant false))).
  { intros p Hp. by apply nth_lookup_Some with (d := get_constant false) || (destruct p as [|[|[|[|]]]]; [done|done|done|done|lia]). }
  pose proof (Hlt 0 ltac:(lia)) as L0. pose proof (Hlt 1 ltac:(lia)) as L1. pose proof (Hlt 2 ltac:(lia)) as L2. pose proof (Hlt 3 ltac:(lia)) as L3.
  unfold pget in *. cbn [nth] in L0, L1, L2, L3.
  unfold db_inputs. cbn [seq opt_fold]. cbn [lookup list_lookup mbind option_bind].
  set (pis := [f0; f1; f2; f3]) in *.
  rewrite (Hnth p0 L0). cbn [mbind option_bind]. rewrite lookup_singleton_ne by done. cbn [mbind option_bind].
  rewrite (Hnth p1 L1). cbn [mbind option_bind]. rewrite lookup_insert_ne, lookup_singleton_ne by done. cbn [mbind option_bind].
  rewrite (Hnth p2 L2). cbn [mbind option_bind]. rewrite !lookup_insert_ne, lookup_singleton_ne by done. cbn [mbind option_bind].
  rewrite (Hnth p3 L3). cbn [mbind option_bind]. rewrite !lookup_insert_ne, lookup_singleton_ne by done.
  assert (Hx : forall p, sxor (nth p pis (get_constant false)) (N.testbit ph (N.of_nat p)) =
    if N.testbit ph (N.of_nat p) then snot (nth p pis (get_constant false)) else nth p pis (get_constant false)).
  { intros p. destruct (nth p pis _) as [i c]. destruct (N.testbit ph _); unfold sxor, snot; cbn; destruct c; done. }
  eexists. split; [reflexivity|]. split; [by rewrite !lookup_insert_ne, lookup_singleton by done|]. split.
  - intros i Hi. destruct i as [|[|[|[|]]]]; [| | | |lia]; cbn [nth]; rewrite Hx.
    + by rewrite !lookup_insert_ne, lookup_insert by done.
    + by rewrite !lookup_insert_ne, lookup_insert by done.
    + by rewrite !lookup_insert_ne, lookup_insert by done.
    + by rewrite lookup_insert.
  - intros n f Hf. destruct (decide (n < 5)); [done|]. rewrite !lookup_insert_ne, lookup_singleton_ne in Hf by lia. done.
Qed.

Definition lval (s : aig) (leaves : list signal) (env : nat -> bool) (i : nat) : bool :=
  default false (sval (ev s env) <$> leaves !! i).

Lemma rewriting_ok {C} (fn : aig -> signal -> C -> option (bool * C)) (Inv : aig -> C -> Prop) d t leaves s c :
  db_ok d -> nv t <= 4 -> length leaves <= 4 -> reachable s -> Forall (valid s) leaves ->
  (forall s s' c, ext s s' -> Inv s c -> Inv s' c) ->
  (forall s' f c, reachable s' -> ext s s' -> valid s' f -> (forall env, sval (ev s' env) f = tt_eval t (lval s leaves env)) -> Inv s' c ->
    exists b c', fn s' f c = Some (b, c') /\ Inv s' c') ->
  Inv s c ->
  exists s' c', node_rewriting fn d t leaves s c = Some (s', c') /\ reachable s' /\ ext s s' /\ Inv s' c'.
Proof.
  intros [D Hcl] Ht Hll R Vl Hgrow Hfn Ic. unfold node_rewriting.
  destruct (extend_spec t 4 Ht) as (t4 & E4 & W4 & N4 & Hev4). rewrite E4. cbn [mbind option_bind].
  destruct (canon_total t4) as [[[r ph] perm] Ec]; [lia|]. rewrite Ec. cbn [mbind option_bind].
  destruct (canon_via t4 r ph perm W4 Ec) as (Lp & _ & _ & Hlt & Hinj & Hvia). rewrite N4 in *.
  destruct (class_find d.2 r) as [l|] eqn:El.
  2: { exists s, c. split; [done|]. split; [done|]. split; [apply ext_refl|done]. }
  pose proof (reachable_wf s R) as W.
  unfold leaf_signals. rewrite decide_True by done. cbn [mbind option_bind].
  set (pis := leaves ++ repeat (get_constant false) (4 - length leaves)).
  assert (Lpis : length pis = 4) by (unfold pis; rewrite app_length, repeat_length; lia).
  assert (Vpis : Forall (valid s) pis).
  { unfold pis. apply Forall_app. split; [done|]. apply Forall_forall. intros f Hf%elem_of_list_In%repeat_spec. subst f. by apply valid_const. }
  destruct (db_inputs_ok pis ph perm Lpis Lp Hlt) as (m & Em & M0 & MS & Mlt). rewrite Em. cbn [mbind option_bind].
  set (y := fun env j => sval (ev s env) (nth j pis (get_constant false))).
  set (den := fun env i => xorb (y env (pget perm i)) (N.testbit ph (N.of_nat (pget perm i)))).
  pose proof (reachable_wf _ (de_reach _ D)) as Wd.
  apply (candidates_ok d.1 D den fn s (fun env => tt_eval t (lval s leaves env)) (N.testbit ph 4) Inv Hgrow Hfn l s m c).
  - pose proof (Hcl r l El) as Hl. eapply Forall_impl; [exact Hl|]. intros f [Hf Hr]. split; [done|]. intros env.
    rewrite <- Hr. rewrite (Hvia (den env) (y env)) by (intros; done).
    change (N.of_nat 4) with 4%N. rewrite Hev4.
    replace (tt_eval t (lval s leaves env)) with (tt_eval t (y env)); [by destruct (tt_eval t (y env)), (N.testbit ph 4)|].
    apply eval_ext. intros k Hk. unfold y, lval, pis. destruct (leaves !! k) as [f'|] eqn:Ef.
    + rewrite app_nth1 by (by apply lookup_lt_Some in Ef). cbn. by rewrite (nth_lookup_Some leaves k (get_constant false) f' Ef).
    + apply lookup_ge_None in Ef. rewrite app_nth2 by lia. cbn. 
      destruct (nth_in_or_default (k - length leaves) (repeat (get_constant false) (4 - length leaves)) (get_constant false)) as [Hin| ->].
      * apply repeat_spec in Hin. rewrite Hin. by rewrite (sval_const s env false W).
      * by rewrite (sval_const s env false W).
  - done.
  - apply ext_refl.
  - split.
    + intros n f Hnf. pose proof (Mlt n f Hnf) as Hn. destruct n as [|i].
      * rewrite M0 in Hnf. injection Hnf as <-. split; [by apply valid_const|]. intros env. rewrite (sval_const s env false W).
        by rewrite (val_const _ _ _ (ev_valuation d.1 (den env) Wd)).
      * rewrite MS in Hnf by lia. injection Hnf as <-. split.
        -- assert (Hv : valid s (nth (pget perm i) pis (get_constant false))); [|exact Hv].
           apply (proj1 (Forall_lookup _ _) Vpis (pget perm i)). pose proof (Hlt i ltac:(lia)) as Hpi.
           destruct (lookup_lt_is_Some_2 pis (pget perm i)) as [g Hg]; [lia|]. rewrite Hg. by rewrite (nth_lookup_Some _ _ (get_constant false) _ Hg).
        -- intros env. rewrite (val_input _ _ _ (ev_valuation d.1 (den env) Wd) i (S i)).
           ++ unfold den, y, sval. cbn. by rewrite xorb_assoc.
           ++ rewrite (de_ins _ D). destruct i as [|[|[|[|]]]]; [done|done|done|done|lia].
    + intros n [->|Hin]; [by eexists|]. rewrite (de_ins _ D) in Hin.
      assert (exists i, i < 4 /\ n = S i) as (i & Hi & ->).
      { apply elem_of_list_In in Hin. cbn in Hin. destruct Hin as [<-|[<-|[<-|[<-|[]]]]]; [exists 0|exists 1|exists 2|exists 3]; split; lia. }
      rewrite MS by done. by eexists.
  - done.
Qed.
