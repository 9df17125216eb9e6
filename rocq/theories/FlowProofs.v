(* Proofs about Flow.v. *)
From Verif Require Import Base Aig AigSem AigProofs AigApi AigReach Topo Clean NetProofs CleanProofs ChoiceMiter ChoiceMiterProofs FactorCircuit SopBalanceProofs.

Lemma may_lift_any {S A} (o : option A) (s : S) (Q : A -> S -> Prop) : (forall a, o = Some a -> Q a s) -> may True (lift o) s Q.
Proof. unfold may, lift. destruct o; cbn; eauto. Qed.
Lemma mapM_may {S A B} T (f : A -> M S B) (I : list A -> list B -> S -> Prop) (l : list A) s :
  I [] [] s ->
  (forall p x q r s, l = p ++ x :: q -> I p r s -> may T (f x) s (fun y s' => I (p ++ [x]) (r ++ [y]) s')) ->
  may T (mapM f l) s (fun r s' => I l r s').
Proof.
  intros H0 Hstep.
  enough (forall q p r s, l = p ++ q -> I p r s -> may T (mapM f q) s (fun r' s' => I l (r ++ r') s')) as E
    by (apply (E l [] []); done).
  clear s H0. induction q as [|x q IH]; intros p r s El HI; cbn [mapM].
  - apply may_ret. rewrite app_nil_r in *. by subst.
  - apply may_bnd. eapply may_mono; [by eapply Hstep|]. cbn beta. intros y s1 H1.
    apply may_bnd. eapply may_mono; [apply (IH (p ++ [x]) (r ++ [y])); [by rewrite <- app_assoc|done]|]. cbn beta. intros r' s2 H2.
    apply may_ret. by rewrite <- app_assoc in H2.
Qed.

(* ---- cleanup_dangling makes a network with the inputs first, whatever it copies ---- *)
Definition fresh (d : aig) : Prop := reachable d /\ npi d = length (ins d) /\ ins d = seq 1 (length (ins d)).
Lemma may_and s a b : reachable s -> valid s a -> valid s b -> may True (create_and a b) s (fun f s' => reachable s' /\ ext s s' /\ valid s' f).
Proof. intros. eapply may_mono; [by apply wp_may, create_and_r|]. intros f s' (? & ? & ? & _). done. Qed.
Lemma assign_valid (P : signal -> Prop) ns : forall fs m m', assign ns fs m = Some m' -> Forall P fs -> Forall P m -> Forall P m'.
Proof.
  induction ns as [|n ns IH]; intros [|f fs] m m' H Hf Hm; cbn in H; try done.
  - by injection H as <-.
  - apply Forall_cons in Hf as [? ?]. eapply IH; [done|done|]. by apply Forall_insert.
Qed.
Lemma cleanup_fresh nb s d : 0 < nb -> cleanup_dangling nb s false false = Some d ->
  fresh d /\ npo d = length (outs d) /\ npi d = length (pis s) /\ npo d = length (pos s).
Proof.
  intros Hnb H. unfold cleanup_dangling in H. apply bind_Some in H as ([u d'] & H & [= ->]).
  enough (Hm : may True (cleanup_m s false false) (aig_init_n nb)
    (fun _ d => fresh d /\ npo d = length (outs d) /\ npi d = length (pis s) /\ npo d = length (pos s))) by (unfold may in Hm; by rewrite H in Hm).
  clear d u H. unfold cleanup_m. apply may_bnd.
  eapply may_mono; [unfold clone_inputs; apply (mapM_may True _ (fun p r d => fresh d /\ length (ins d) = length p /\ size d = S (length p) /\ outs d = [] /\ npo d = 0 /\ Forall (valid d) r))|].
  { split; [split; [by constructor|done]|]. done. }
  { intros p n q r d _ ((R & Hn & Hi) & Hl & Hs & Ho & Hp & Hv). apply may_bnd, may_lift_any. intros fs _. cbn [andb].
    eapply may_mono; [by apply wp_may, create_pi_r|]. cbn beta. intros f d' (R' & -> & Hk & Hi' & Ho' & Hn' & Hp' & _).
    rewrite Hi', !app_length, Ho', Hp'. cbn [length]. split_and!; try done; try lia.
    - split; [done|]. split; [rewrite Hi', app_length; cbn; lia|]. rewrite Hi', app_length, Hi, seq_length, Hs, Hl. cbn [length].
      by rewrite Nat.add_1_r, seq_S.
    - unfold size in *. rewrite Hk, app_length, Hs. cbn. lia.
    - apply Forall_app. split; [|apply Forall_singleton; unfold valid, size; rewrite Hk, app_length; cbn; lia].
      eapply Forall_impl; [exact Hv|]. intros f. unfold valid, size. rewrite Hk, app_length. lia. }
  cbn beta. intros cis d (Hf & Hl & _ & Ho & Hp & Hv). apply may_bnd.
  eapply (may_mono _ _ _ (fun m d' => reachable d' /\ ext d d' /\ Forall (valid d') m)).
  { unfold cleanup_impl. apply may_bnd, may_lift_any. intros m Em. apply may_bnd, may_lift_any. intros l _.
    apply (foldM_may True _ (fun _ m d' => reachable d' /\ ext d d' /\ Forall (valid d') m)).
    - split; [apply Hf|]. split; [apply ext_refl|]. pose proof (net_size _ (wf_network _ (reachable_wf _ (proj1 Hf)))) as Hz.
      eapply (assign_valid (valid d)); [exact Em|exact Hv|]. apply Forall_insert; [|exact Hz].
      apply Forall_forall. intros f Hin%elem_of_list_In%repeat_spec. subst. exact Hz.
    - intros p n q m' d' _ (R & X & V). unfold copy_node. apply may_bnd, may_lift_any. intros ci _.
      destruct (bool_decide (n = 0) || ci); [by apply may_ret|].
      apply may_bnd, may_lift_any. intros k _. apply may_bnd, may_lift_any. intros a Ha. apply may_bnd, may_lift_any. intros b Hb.
      apply may_bnd. eapply may_mono; [apply may_and; [done|..]|].
      + apply (Forall_lookup_1 _ _ _ _ V Ha).
      + apply (Forall_lookup_1 _ _ _ _ V Hb).
      + cbn beta. intros f d2 (R2 & X2 & V2). apply may_ret. split; [done|]. split; [by eapply ext_trans|].
        apply Forall_insert; [|done]. eapply Forall_impl; [exact V|]. intros. by eapply ext_valid. }
  cbn beta. intros m d' (R & X & V). apply may_bnd.
  eapply may_mono; [unfold clone_outputs; apply (mapM_may True _ (fun p _ e => reachable e /\ ks e = ks d' /\ ins e = ins d /\ npi e = npi d /\ npo e = length (outs e) /\ npo e = length p))|].
  { split; [done|]. rewrite (ext_ins _ _ X), (ext_npi _ _ X), (ext_npo _ _ X), (ext_outs _ _ X), Ho, Hp. done. }
  { intros p po q r e _ (Re & Hk & Hi & Hn & Hpo & Hlp). apply may_bnd, may_lift_any. intros f Ef.
    apply may_bnd. unfold may at 1. unfold get at 1. apply may_bnd, may_lift_any. intros pi _. cbn [andb].
    apply may_bnd. eapply may_mono; [apply wp_may, create_po_r; [done|]|].
    - pose proof (Forall_lookup_1 _ _ _ _ V Ef) as Hvf. unfold valid, size in *. by rewrite Hk.
    - cbn beta. intros x e' (R' & Hk' & Hi' & Ho' & Hn' & Hp' & _). apply may_ret. rewrite Hi', Hn', Hp', Ho', Hk', !app_length. cbn.
      split_and!; try done; lia. }
  cbn beta. intros _ e (Re & _ & Hi & Hn & Hpo & Hlp). apply may_ret. destruct Hf as (_ & Hf1 & Hf2).
  split_and!; [split; [done|rewrite Hi, Hn; done]|done|congruence|done].
Qed.

(* ---- the miter of any networks, if it is made, has the outputs of the first one ---- *)
Section merge.
Context (heap : list aig) (e0 : entry) (rest : list entry) (s0 : aig) (np no : nat).
Hypothesis Hs0 : heap !! estor e0 = Some s0.
Hypothesis R0 : reachable s0.
Hypothesis I0 : ins s0 = seq 1 np.
Hypothesis P0 : npi s0 = np.
Hypothesis O0 : npo s0 = no.
Hypothesis L0 : length (outs s0) = no.
Hypothesis Hnp : 0 < np.
Hypothesis Hrest : forall e, e ∈ rest -> eptr e <> eptr e0 /\ estor e <> estor e0.
Local Notation es := (e0 :: rest).

(* the invariant of the proofs for C41, for the first network alone *)
Local Notation two := [e0; e0].
Lemma Hmg : mergeable heap two np no.
Proof using Hs0 R0 I0 P0 O0 L0 Hnp.
  clear Hrest. split; [cbn; lia|done| |].
  - intros e He. rewrite !elem_of_cons, elem_of_nil in He. exists s0. destruct He as [->|[->|[]]]; done.
  - intros e e' He He'. rewrite !elem_of_cons, elem_of_nil in He, He'. intros _. naive_solver.
Qed.
Lemma leader_two j e : leader two j e -> j = 0 /\ e = e0.
Proof.
  clear. intros [E H]. destruct j as [|[|j]]; cbn in E; [|injection E as <-; by destruct (H 0 e0 ltac:(lia) eq_refl)|done].
  by injection E as <-.
Qed.
Lemma leader_first0 : leader two 0 e0.
Proof. clear. split; [done|lia]. Qed.
Local Notation mok := (mok heap two np).

Lemma first_other p : p <> eptr e0 -> forall j, first_entry p es 0 = Some j -> j <> 0.
Proof.
  clear. intros Hp j. cbn [first_entry]. rewrite decide_False by done.
  assert (H : forall l k j, first_entry p l k = Some j -> k <= j).
  { induction l as [|x l IH]; intros k j' E; [done|]. cbn in E. case_decide; [injection E as <-; lia|]. apply IH in E. lia. }
  intros E%H. lia.
Qed.
Lemma create_node_same s n st : create_node es (eptr e0) s n st = create_node two (eptr e0) s n st.
Proof. clear. unfold create_node, get_id. cbn [first_entry]. by rewrite !(decide_True _ _ (eq_refl (eptr e0))). Qed.
Lemma dfs_same fuel s n st : dfs es fuel e0 s n st = dfs two fuel e0 s n st.
Proof.
  clear. revert n st. induction fuel as [|fuel IH]; intros n st; [done|]. cbn [dfs]. destruct (is_pi s n) as [[]|]; [done| |done].
  cbn [mbind option_bind]. destruct (mvis st (estor e0) n); [done|]. destruct (ks s !! n) as [k|]; [|done]. cbn [mbind option_bind].
  unfold bnd. rewrite IH. destruct (dfs two fuel e0 s (sidx k.1) st) as [[u st1]|]; [|done].
  rewrite IH. destruct (dfs two fuel e0 s (sidx k.2) st1) as [[u2 st2]|]; [|done]. by rewrite create_node_same.
Qed.

(* copying a node of another network *)
Lemma create_node_other st p s n : mok st -> p <> eptr e0 ->
  may True (create_node es p s n) st (fun _ st' => mok st' /\ mframe st st' /\ mvis st' = mvis st).
Proof.
  clear Hrest. intros H Hp. unfold may, create_node. destruct (ks s !! n) as [[a b]|] eqn:Ek; [|done]. cbn [mbind option_bind fst snd].
  unfold get_id. destruct (first_entry p es 0) as [j|] eqn:Ej; [|done]. cbn [mbind option_bind].
  destruct (mmap st j (sidx a)) as [a'|] eqn:Ea; [|done]. cbn [mbind option_bind].
  destruct (mmap st j (sidx b)) as [b'|] eqn:Eb; [|done]. cbn [mbind option_bind].
  match goal with |- match ?c st with _ => _ end => change (may True c st (fun _ st' => mok st' /\ mframe st st' /\ mvis st' = mvis st)) end.
  pose proof (mk_lt _ _ _ _ H _ _ _ Ea) as La. pose proof (mk_lt _ _ _ _ H _ _ _ Eb) as Lb.
  pose proof (create_and_r (mnew st) (Sig a' (scompl a)) (Sig b' (scompl b)) (mk_r _ _ _ _ H) La Lb) as Hc.
  apply wp_elim in Hc as (f & s' & E & R' & X & V & _).
  apply may_bnd. unfold may at 1, new_op. rewrite E. apply may_bnd. eapply may_lift; [done|].
  set (st1 := Mst _ _ s').
  assert (H1 : mok st1) by (eapply mok_new; [done|done|apply (ext_ks _ _ X)|apply (ext_ins _ _ X)|apply (ext_npi _ _ X)]).
  assert (F1 : mframe st st1).
  { split; [split; [apply (ext_ks _ _ X)|done|done]|]. cbn. rewrite (ext_outs _ _ X), (ext_npo _ _ X). done. }
  eapply may_mono; [apply wp_may; eapply (mok_insert heap two np st1 j n (sidx f)); [done|exact V|]|].
  - intros _ e s2 Hl. apply leader_two in Hl as [-> _]. by destruct (first_other p Hp 0 Ej).
  - cbn beta. intros _ st' (? & ? & _ & ?). split; [done|]. split; [by eapply mframe_trans|done].
Qed.
Lemma dfs_other e s : e ∈ rest -> forall fuel n st, mok st -> may True (dfs es fuel e s n) st (fun _ st' => mok st' /\ mframe st st').
Proof.
  intros He. destruct (Hrest e He) as [Hp Hst]. clear Hrest.
  induction fuel as [|fuel IH]; intros n st Hok; unfold may; [done|]. cbn [dfs]. destruct (is_pi s n) as [[]|]; [|cbn [mbind option_bind]|done].
  { cbn. split; [done|apply mframe_refl]. }
  destruct (mvis st (estor e) n); [split; [done|apply mframe_refl]|]. destruct (ks s !! n) as [k|]; [|done]. cbn [mbind option_bind].
  match goal with |- match ?c st with _ => _ end => change (may True c st (fun _ st' => mok st' /\ mframe st st')) end.
  apply may_bnd. eapply may_mono; [by apply IH|]. cbn beta. intros _ st1 (H1 & F1).
  apply may_bnd. eapply may_mono; [by apply IH|]. cbn beta. intros _ st2 (H2 & F2).
  apply may_bnd. eapply may_mono; [by apply create_node_other|]. cbn beta. intros _ st3 (H3 & F3 & _).
  unfold may. set (st4 := Mst _ _ _). split.
  - split; cbn; try apply H3. intros j e' m Hl. case_decide as Hd; [|apply (mk_vis _ _ _ _ H3 j e' m Hl)].
    destruct Hd as [Hd _]. apply leader_two in Hl as [_ ->]. congruence.
  - repeat (eapply mframe_trans; [eassumption|]). split; [|done]. split; [exists []; by rewrite app_nil_r|done|]. intros i m Hv. cbn. by case_decide.
Qed.

Definition root_ok (st : mst) (i : nat) (g : signal) : Prop :=
  exists f, outs s0 !! i = Some f /\ valid (mnew st) g /\ forall env, sval (ev (mnew st) env) g = sval (ev s0 env) f.
Lemma root_ok_mono st st' i g : mle st st' -> root_ok st i g -> root_ok st' i g.
Proof.
  clear. intros Hle (f & Hf & Hv & He). exists f. destruct (ml_ks _ _ Hle) as [t Ht].
  assert (Hs : size (mnew st) <= size (mnew st')) by (unfold size; rewrite Ht, app_length; lia).
  split; [done|]. split; [unfold valid in *; lia|]. intros env. rewrite <- He. unfold sval. f_equal. unfold ev. rewrite Ht. by apply evl_nth_app.
Qed.

Lemma add_output_mo st i j : mok st -> i < no -> j < length es ->
  may True (add_output heap es i j) st (fun _ st' => mok st' /\ mle st st' /\
    exists g, outs (mnew st') = outs (mnew st) ++ [g] /\ npo (mnew st') = S (npo (mnew st)) /\ (j = 0 -> root_ok st' i g)).
Proof using Hs0 R0 I0 P0 O0 L0 Hnp Hrest.
  intros Hok Hi Hj. unfold may, add_output. destruct (es !! j) as [e|] eqn:Ee; [|done]. cbn [mbind option_bind].
  destruct (heap !! estor e) as [s|] eqn:Es; [|done]. cbn [mbind option_bind]. destruct (po_at s i) as [f|] eqn:Ef; [|done]. cbn [mbind option_bind].
  set (Q := fun (_ : unit) (st' : mst) => mok st' /\ mle st st' /\
    exists g, outs (mnew st') = outs (mnew st) ++ [g] /\ npo (mnew st') = S (npo (mnew st)) /\ (j = 0 -> root_ok st' i g)).
  match goal with |- match ?c st with _ => _ end => change (may True c st Q) end.
  apply may_bnd.
  eapply (may_mono _ _ _ (fun _ st' => mok st' /\ mframe st st' /\ (j = 0 -> sidx f = 0 \/ is_Some (mmap st' 0 (sidx f))))).
  { destruct (decide (j = 0)) as [->|Hj0].
    - injection Ee as <-. rewrite Hs0 in Es. injection Es as <-. unfold may. rewrite dfs_same.
      change (may True (dfs two (S (size s0)) e0 s0 (sidx f)) st (fun _ st' => mok st' /\ mframe st st' /\ (0 = 0 -> sidx f = 0 \/ is_Some (mmap st' 0 (sidx f))))).
      assert (Hfv : sidx f < size s0).
      { unfold po_at in Ef. case_decide; [|done]. eapply (wf_out s0 (reachable_wf _ R0)), elem_of_list_lookup_2, Ef. }
      eapply may_mono; [apply wp_may, (dfs_wp heap two np no Hmg 0 e0 s0 leader_first0 Hs0); [lia|done|done]|]. cbn beta. intros _ st' (? & ? & ? & _). done.
    - destruct j as [|j]; [done|]. cbn in Ee. eapply may_mono; [apply dfs_other; [by eapply elem_of_list_lookup_2|done]|]. cbn beta. intros _ st' (? & ?). done. }
  cbn beta. intros _ st1 (H1 & F1 & D1).
  apply may_bnd. eapply may_mono; [apply wp_may; eapply (mok_insert heap two np st1 j (sidx f) 0); [done| |]|].
  { apply wf_size, reachable_wf, H1. }
  { intros Hnone e' s' Hl _. apply leader_two in Hl as [-> _]. left. destruct (D1 eq_refl) as [?|[? ?]]; [done|congruence]. }
  cbn beta. intros _ st2 (H2 & F2 & [m Hm] & Hv2).
  apply may_bnd. unfold may at 1, get. apply may_bnd. eapply may_lift; [exact Hm|].
  pose proof (create_po_r (mnew st2) (Sig m (scompl f)) (mk_r _ _ _ _ H2) (mk_lt _ _ _ _ H2 _ _ _ Hm)) as Hc.
  apply wp_elim in Hc as (r & s3 & E & R3 & Hks & Hin3 & Ho3 & Hnpi3 & Hnpo3 & _).
  apply may_bnd. unfold may at 1, new_op. rewrite E. apply may_ret.
  assert (H3 : mok (Mst (mmap st2) (mvis st2) s3)).
  { eapply mok_new; [done|done| |done|done]. exists []. by rewrite app_nil_r. }
  assert (Hle3 : mle st2 (Mst (mmap st2) (mvis st2) s3)) by (split; [exists []; by rewrite app_nil_r|done|done]).
  destruct F1 as (Hle1 & Ho1 & Hn1 & _), F2 as (Hle2 & Ho2 & Hn2 & _).
  split; [done|]. split; [eapply mle_trans; [exact Hle1|]; by eapply mle_trans|].
  exists (Sig m (scompl f)). cbn. split; [congruence|]. split; [congruence|]. intros ->.
  injection Ee as <-. rewrite Hs0 in Es. injection Es as <-. unfold po_at in Ef. case_decide; [|done].
  exists f. split; [done|]. split; [change (m < length (ks s3)); rewrite Hks; apply (mk_lt _ _ _ _ H2 _ _ _ Hm)|].
  intros env. unfold sval. cbn [sidx scompl mnew]. f_equal.
  apply (map_ev heap two np no Hmg _ 0 e0 s0 env H3 leader_first0 Hs0 _ _ Hm).
  eapply (wf_out s0 (reachable_wf _ R0)), elem_of_list_lookup_2, Ef.
Qed.

Record lo (st : mst) (k : nat) : Prop := {
  lp_ok : mok st;
  lp_len : length (outs (mnew st)) = k * length es;
  lp_npo : npo (mnew st) = length (outs (mnew st));
  lp_outs : forall i, i < k -> exists g, outs (mnew st) !! (i * length es) = Some g /\ root_ok st i g
}.
Lemma outputs_of_mo st i : lo st i -> i < no ->
  may True (mapM (fun j => add_output heap es i j) (seq 0 (length es))) st (fun _ st' => lo st' (S i)).
Proof using Hs0 R0 I0 P0 O0 L0 Hnp Hrest.
  intros Hlo Hi.
  set (I := fun (p : list nat) (_ : list unit) (st' : mst) => mok st' /\ mle st st' /\ npo (mnew st') = length (outs (mnew st')) /\
    exists t, outs (mnew st') = outs (mnew st) ++ t /\ length t = length p /\
      (0 < length p -> exists g, t !! 0 = Some g /\ root_ok st' i g)).
  eapply may_mono; [apply (mapM_may True _ I)|].
  - split; [apply Hlo|]. split; [apply mle_refl|]. split; [apply Hlo|]. exists []. rewrite app_nil_r. split; [done|]. split; [done|]. cbn. lia.
  - intros p x q r st1 E (Hok & Hle & Hn & t & Ho & Hlt & H0). apply seq_split_at in E as [-> Hp]. cbn [Nat.add].
    eapply may_mono; [by apply add_output_mo|]. cbn beta. intros y st2 (Hok2 & Hle2 & g & Ho2 & Hn2 & Hg).
    split; [done|]. split; [by eapply mle_trans|]. split; [rewrite Hn2, Ho2, app_length, Hn; cbn; lia|].
    exists (t ++ [g]). split; [rewrite Ho2, Ho; by rewrite app_assoc|]. split; [rewrite !app_length; cbn; lia|]. intros _.
    destruct (decide (length p = 0)) as [Hz|Hz].
    + exists g. split; [rewrite lookup_app_r by lia; by rewrite Hlt, Hz|by apply Hg].
    + destruct (H0 ltac:(lia)) as (g0 & Ht & Hg0). exists g0. split; [by apply lookup_app_l_Some|by eapply root_ok_mono].
  - cbn beta. intros _ st' (Hok & Hle & Hn & t & Ho & Hlt & H0). rewrite seq_length in *. split; [done| |done|].
    + rewrite Ho, app_length, (lp_len _ _ Hlo), Hlt. lia.
    + intros i' Hi'. destruct (decide (i' = i)) as [->|Hne].
      * destruct (H0 ltac:(cbn; lia)) as (g & Ht & Hg). exists g. split; [|done]. rewrite Ho, lookup_app_r by (rewrite (lp_len _ _ Hlo); lia).
        by rewrite (lp_len _ _ Hlo), Nat.sub_diag.
      * destruct (lp_outs _ _ Hlo i' ltac:(lia)) as (g & Hg & Hr). exists g. split; [rewrite Ho; by apply lookup_app_l_Some|by eapply root_ok_mono].
Qed.

Theorem merge_first b t : 0 < b -> rest <> [] -> merge heap es (aig_init_n b) = Some t ->
  network t /\ npi t = np /\ ins t = seq 1 np /\ npo t = no /\ length (outs t) = no /\
  (forall i f, outs s0 !! i = Some f -> exists g, outs t !! i = Some g /\ valid t g /\ forall env, sval (ev t env) g = sval (ev s0 env) f) /\
  exists t0, reachable t0 /\ ks t = ks t0 /\ ins t = ins t0 /\ ph t = ph t0.
Proof using Hs0 R0 I0 P0 O0 L0 Hnp Hrest.
  intros Hb Hne H. unfold merge in H. cbn [lookup list_lookup mbind option_bind] in H.
  change (list_lookup (estor e0) heap) with (heap !! estor e0) in H. rewrite Hs0 in H. cbn [mbind option_bind] in H.
  assert (HN : 1 < length es) by (destruct rest; [done|cbn; lia]).
  rewrite decide_False in H by lia. apply bind_Some in H as (ok & _ & H). destruct (negb ok); [done|]. case_decide; [done|].
  rewrite P0, O0 in H.
  pose proof (create_pis_wp np b Hb) as H1. apply wp_elim in H1 as (r1 & new1 & E1 & Hr1 & Hsz1 & Hi1 & Hn1 & Hpo1 & Hou1).
  rewrite E1 in H. cbn [mbind option_bind] in H. apply bind_Some in H as ([r2 st] & E2 & [= <-]).
  set (st0 := Mst _ _ new1) in E2.
  assert (Hlo0 : lo st0 0).
  { split; cbn; [|by rewrite Hou1|by rewrite Hou1|lia].
    split; cbn; [done|done|done| | | |done].
    - intros j n m. case_decide; [|done]. intros [= <-]. lia.
    - intros j k Hk. by rewrite decide_True.
    - intros j e s n m Hl Hs. case_decide; [|done]. intros [= <-]. right; left. done. }
  assert (Hlo : lo st no).
  { enough (Hm : may True (mapM (fun i => mapM (fun j => add_output heap es i j) (seq 0 (length es))) (seq 0 no)) st0 (fun _ st' => lo st' no))
      by (unfold may in Hm; by rewrite E2 in Hm).
    eapply may_mono; [apply (mapM_may True _ (fun p _ st' => lo st' (length p)))|].
    - done.
    - intros p x q r st1 E Hl. apply seq_split_at in E as [-> Hp]. cbn [Nat.add].
      eapply may_mono; [by apply outputs_of_mo|]. cbn beta. intros y st2 ?. rewrite app_length. cbn [length]. by rewrite Nat.add_1_r.
    - cbn beta. intros _ st'. by rewrite seq_length. }
  clear E2. pose proof (lp_ok _ _ Hlo) as Hok. pose proof (reachable_wf _ (mk_r _ _ _ _ Hok)) as Hw.
  assert (Hkl : length (keep (length es) 0 (outs (mnew st))) = no) by (apply keep_length; [lia|apply Hlo]).
  assert (Hnpo' : npo (mnew st) - (length (outs (mnew st)) - length (keep (length es) 0 (outs (mnew st)))) = no).
  { rewrite Hkl, (lp_npo _ _ Hlo), (lp_len _ _ Hlo). nia. }
  split_and!.
  - pose proof (wf_network _ Hw) as [H1 H2 H3 H4 H5 H6 H7 H8 H9]. split; cbn [ks ins outs npi npo fo size]; try done.
    + apply Forall_lookup. intros i g Hg. rewrite keep_lookup0 in Hg by lia. by apply (Forall_lookup_1 _ _ _ _ H6 Hg).
    + etransitivity; [exact (Nat.eq_le_incl _ _ Hnpo')|exact (Nat.eq_le_incl _ _ (eq_sym Hkl))].
  - cbn. apply Hok.
  - cbn. apply Hok.
  - exact Hnpo'.
  - exact Hkl.
  - intros i f Hf. cbn [outs]. assert (Hi : i < no) by (apply lookup_lt_Some in Hf; lia).
    destruct (lp_outs _ _ Hlo i Hi) as (g & Hg & f' & Hf' & Hv & Hev). exists g. rewrite keep_lookup0 by lia.
    split; [exact Hg|]. split; [exact Hv|]. intros env. rewrite Hf in Hf'. injection Hf' as <-. apply Hev.
  - exists (mnew st). split; [apply Hok|]. done.
Qed.
End merge.
