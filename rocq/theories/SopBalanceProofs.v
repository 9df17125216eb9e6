(* Proofs about SopBalance.v. *)
From Verif Require Import Base Aig AigSem AigProofs AigApi AigReach Topo Clean TopoProofs NetProofs CleanProofs Depth DepthProofs Balance BalanceProofs Tt TtProofs TtCache Cut CutEnum CutEnumProofs
  Isop IsopProofs RefDeref FactorCircuit RefactorProofs RefactorInfoProofs SopBalance PropNet.

Lemma wp_may {S A} T (m : M S A) s (Q : A -> S -> Prop) : wp m s Q -> may T m s Q.
Proof. unfold wp, may. by destruct (m s) as [[? ?]|]. Qed.
Lemma foldM_may {S A B} T (f : B -> A -> M S B) (I : list A -> B -> S -> Prop) (l : list A) b s :
  I [] b s -> (forall p x q b s, l = p ++ x :: q -> I p b s -> may T (f b x) s (fun b' s' => I (p ++ [x]) b' s')) ->
  may T (foldM f b l) s (fun b' s' => I l b' s').
Proof.
  intros H0 Hstep.
  enough (forall q p b s, l = p ++ q -> I p b s -> may T (foldM f b q) s (fun b' s' => I l b' s')) as E by (apply (E l []); done).
  clear b s H0. induction q as [|x q IH]; intros p b s El HI; cbn [foldM].
  - rewrite app_nil_r in El. subst. by apply may_ret.
  - apply may_bnd. eapply may_mono; [by eapply Hstep|]. cbn beta. intros b' s' H. apply (IH (p ++ [x])); [by rewrite <- app_assoc|done].
Qed.

(* ---- trees ---- *)
Definition comb (c : bool) (l : list bool) : bool := if c then forallb (fun x => x) l else existsb (fun x => x) l.
Definition cop (c x y : bool) : bool := if c then x && y else x || y.
Lemma comb_cons c x l : comb c (x :: l) = cop c x (comb c l).
Proof. by destruct c. Qed.
Lemma cop_assoc c x y z : cop c x (cop c y z) = cop c (cop c x y) z.
Proof. by destruct c, x, y. Qed.
Lemma comb_perm c l l' : Permutation l l' -> comb c l = comb c l'.
Proof.
  induction 1 as [|x l l' _ IH|x y l|]; [done|by rewrite !comb_cons, IH| |congruence].
  rewrite !comb_cons. by destruct c, x, y.
Qed.

Section tie.
Variable T : Prop.
Variable tie : list arrival -> nat.
(* the queue has a top, or nothing is claimed *)
Hypothesis Htie : T \/ forall q, q <> [] -> exists x, q !! tie q = Some x /\ forallb (fun y : arrival => negb (llt y.2 x.2)) q = true.

Lemma pop_spec q d (Q : arrival * list arrival -> aig -> Prop) : q <> [] ->
  (forall x r, Permutation q (x :: r) -> Q (x, r) d) -> may T (lift (pop tie q)) d Q.
Proof.
  intros Hq H. unfold may, lift, pop. destruct (q !! tie q) as [x|] eqn:E; cbn [mbind option_bind].
  - match goal with |- context [forallb ?p q] => destruct (forallb p q) eqn:F end; cbn [mbind option_bind].
    + apply H. by apply delete_Permutation.
    + destruct Htie as [?|Ht]; [done|]. destruct (Ht q Hq) as (y & Ey & Fy). rewrite E in Ey. injection Ey as <-. congruence.
  - destruct Htie as [?|Ht]; [done|]. destruct (Ht q Hq) as (y & Ey & _). congruence.
Qed.

Notation vals d env q := (map (fun x : arrival => sval (ev d env) x.1) q).
Definition okq (d : aig) (q : list arrival) : Prop := Forall (fun x => valid d x.1 /\ is_Some x.2) q.
Lemma okq_ext d d' q : ext d d' -> okq d q -> okq d' q.
Proof. intros He Hq. eapply Forall_impl; [exact Hq|]. intros x [? ?]. split; [by eapply ext_valid|done]. Qed.
Lemma vals_ext d d' env q : ext d d' -> okq d q -> vals d' env q = vals d env q.
Proof.
  intros He Hq. induction Hq as [|x q [Hx _] Hq IH]; [done|]. cbn [map]. rewrite IH. f_equal. by apply ext_sval.
Qed.
Lemma lsucc_some a : is_Some (lsucc a).
Proof. destruct a; by eexists. Qed.

Lemma tree_spec c fuel : forall q d, reachable d -> okq d q -> q <> [] -> length q <= S fuel ->
  may T (balanced_tree tie fuel c q) d (fun x d' => reachable d' /\ ext d d' /\ valid d' x.1 /\ is_Some x.2 /\
    forall env, sval (ev d' env) x.1 = comb c (vals d env q)).
Proof.
  induction fuel as [|fuel IH]; intros q d Hr Hq Hne Hl.
  - destruct q as [|x [|y q]]; [done| |cbn in Hl; lia]. apply may_ret. apply Forall_inv in Hq as [Hv Hs].
    split; [done|]. split; [apply ext_refl|]. split; [done|]. split; [done|]. intros env. cbn [map]. rewrite comb_cons. by destruct c, (sval (ev d env) x.1).
  - destruct q as [|x [|y q]]; [done| |].
    + apply may_ret. apply Forall_inv in Hq as [Hv Hs].
      split; [done|]. split; [apply ext_refl|]. split; [done|]. split; [done|]. intros env. cbn [map]. rewrite comb_cons. by destruct c, (sval (ev d env) x.1).
    + cbn [balanced_tree]. remember (x :: y :: q) as q0 eqn:E0. apply may_bnd. apply pop_spec; [done|]. intros x1 r1 P1. cbn [fst snd].
      assert (Hlen : length q0 = S (length r1)) by (by rewrite P1).
      assert (Hr1 : r1 <> []) by (intros ->; rewrite E0 in Hlen; cbn in Hlen; lia).
      apply may_bnd. apply pop_spec; [done|]. intros x2 r2 P2. cbn [fst snd].
      assert (P : Permutation q0 (x1 :: x2 :: r2)) by (by rewrite P1, P2).
      assert (Hq' : okq d (x1 :: x2 :: r2)) by (unfold okq; by rewrite <- P).
      apply Forall_cons in Hq' as [[V1 S1] Hq']. apply Forall_cons in Hq' as [[V2 S2] Hq'].
      apply may_bnd. apply wp_may. eapply wp_mono with (P := fun f d' => reachable d' /\ ext d d' /\ valid d' f /\
        forall env, sval (ev d' env) f = cop c (sval (ev d env) x1.1) (sval (ev d env) x2.1)).
      { destruct c; [by apply create_and_r|by apply create_or_r]. }
      cbn beta. intros f d1 (Hr1' & He1 & Hv1 & Hf). eapply may_mono; [apply IH|].
      * done.
      * constructor; [split; [done|]|by eapply okq_ext]. apply lsucc_some.
      * done.
      * rewrite P in Hl. cbn [length] in *. lia.
      * cbn beta. intros z d2 (Hr2 & He2 & Hv2 & Hs2 & Hz). split; [done|]. split; [by eapply ext_trans|]. split; [done|]. split; [done|].
        intros env. rewrite Hz. cbn [map]. rewrite comb_cons. cbn [fst]. rewrite Hf, (vals_ext d d1) by done.
        rewrite (comb_perm c (vals d env q0) (vals d env (x1 :: x2 :: r2))) by (by apply Permutation_map).
        cbn [map]. by rewrite !comb_cons, cop_assoc.
Qed.

(* the literals of a cube *)
Lemma product_ok n c inputs d : length inputs = n -> okq d inputs -> reachable d -> forall l, Forall (fun i => i < n) l ->
  exists q, product_queue c inputs l = Some q /\ okq d q /\
    forall env, comb true (vals d env q) = true <-> forall i, i ∈ l -> get_cmask c i = true -> input_values d env inputs i = get_cbit c i.
Proof.
  intros Hn Hin Hr. induction 1 as [|i l Hi Hl IH]; cbn [product_queue].
  - exists []. split; [done|]. split; [constructor|]. intros env. split; [by intros _ i ?%elem_of_nil|done].
  - destruct IH as (q & Eq & Hq & Hv). destruct (get_cmask c i) eqn:Em.
    + destruct (lookup_lt_is_Some_2 inputs i) as [x Hx]; [lia|]. rewrite Hx, Eq. cbn [mbind option_bind].
      pose proof (Forall_lookup_1 _ _ _ _ Hin Hx) as [V S].
      eexists. split; [done|]. split; [constructor; [|done]; split; cbn; [destruct (get_cbit c i); [done|by apply valid_snot]|done]|].
      intros env. cbn [map]. rewrite comb_cons. cbn [cop fst]. rewrite andb_true_iff, Hv.
      assert (E : sval (ev d env) (if get_cbit c i then x.1 else snot x.1) = true <-> input_values d env inputs i = get_cbit c i).
      { unfold input_values. rewrite Hx. destruct (get_cbit c i); [done|]. rewrite sval_snot. by destruct (sval (ev d env) x.1). }
      rewrite E. split.
      * intros [H1 H2] j [->|Hj]%elem_of_cons Hm; [done|by apply H2].
      * intros H. split; [apply H; [left|done]|]. intros j Hj. apply H. by right.
    + exists q. split; [done|]. split; [done|]. intros env. rewrite Hv. split.
      * intros H j [->|Hj]%elem_of_cons Hm; [congruence|by apply H].
      * intros H j Hj. apply H. by right.
Qed.

Lemma input_values_ext d d' env inputs : ext d d' -> okq d inputs -> forall k, input_values d' env inputs k = input_values d env inputs k.
Proof.
  intros He Hq k. unfold input_values. destruct (inputs !! k) as [x|] eqn:E; [|done].
  pose proof (Forall_lookup_1 _ _ _ _ Hq E) as [V _]. by apply ext_sval.
Qed.

Lemma cube_below_on n c x : cube_below n c -> (forall i, i ∈ seq 0 n -> get_cmask c i = true -> x i = get_cbit c i) <-> cube_on c x.
Proof.
  intros Hb. split; [|intros H i _; apply H]. intros H i Hm. apply H; [|done]. apply elem_of_seq.
  assert (i < n) by (by apply Hb). lia.
Qed.

Lemma sop_ok : rebalances T (sop_rebalancing tie).
Proof.
  intros t inputs bl bc d Ht [a Ha] Hn Hr Hin.
  change (may T (sop_rebalancing tie t inputs bl bc) d (fun r d' => reachable d' /\ ext d d' /\ (bl = None -> r <> []) /\
    Forall (fun c => valid d' c.1.1 /\ is_Some c.1.2 /\ forall env, sval (ev d' env) c.1.1 = tt_eval t (input_values d env inputs)) r)).
  unfold sop_rebalancing. destruct (isop_spec t Ht) as (cs & Ec & Hcov & Hbel & _). apply may_bnd. eapply may_lift; [exact Ec|].
  assert (Hcs : cs <> []) by (intros ->; apply Hcov in Ha as (c & ?%elem_of_nil & _); done).
  apply may_bnd. eapply may_mono; [apply (foldM_may T _ (fun p (x : list arrival * nat) d' => reachable d' /\ ext d d' /\ okq d' x.1 /\ length x.1 = length p /\
    forall env, comb false (vals d' env x.1) = true <-> covered p (input_values d env inputs)))|].
  - split; [done|]. split; [apply ext_refl|]. split; [constructor|]. split; [done|]. intros env. cbn. split; [done|]. by intros (c & ?%elem_of_nil & _).
  - intros p c q [tl num] d1 Ep (Hr1 & He1 & Hq1 & Hl1 & Hv1). cbn [fst snd] in *. unfold add_cube.
    destruct (product_ok (nv t) c inputs d1 Hn (okq_ext _ _ _ He1 Hin) Hr1 (seq 0 (nv t))) as (pq & Epq & Hpq & Hpv).
    { apply Forall_forall. intros i Hi%elem_of_seq. lia. }
    assert (Hc : cube_below (nv t) c) by (rewrite Forall_forall in Hbel; apply Hbel; rewrite Ep; apply elem_of_app; right; left).
    assert (Hon : forall env, comb true (vals d1 env pq) = true <-> cube_on c (input_values d env inputs)).
    { intros env. rewrite Hpv, (cube_below_on (nv t) c) by done. unfold cube_on. split; intros H i Hm; [rewrite <- (input_values_ext d d1) by done|rewrite (input_values_ext d d1) by done]; by apply H. }
    apply may_bnd. eapply may_lift; [exact Epq|]. apply may_bnd.
    eapply may_mono with (P := fun x d' => reachable d' /\ ext d1 d' /\ valid d' x.1 /\ is_Some x.2 /\ forall env, sval (ev d' env) x.1 = comb true (vals d1 env pq)).
    + destruct pq as [|y pq].
      * cbn. split; [done|]. split; [apply ext_refl|]. split; [by apply valid_const, reachable_wf|]. split; [by eexists|].
        intros env. by apply sval_const, reachable_wf.
      * apply tree_spec; [done|done|done|cbn; lia].
    + cbn beta. intros f d2 (Hr2 & He2 & Hv2 & Hs2 & Hf). apply may_ret. cbn [fst snd]. split; [done|]. split; [by eapply ext_trans|].
      split; [constructor; [done|by eapply okq_ext]|]. split; [rewrite app_length; cbn; lia|].
      intros env. cbn [map]. rewrite comb_cons. cbn [cop]. rewrite orb_true_iff, Hf, Hon, (vals_ext d1 d2), Hv1 by done.
      unfold covered. split.
      * intros [Hc1|(c' & Hc' & Hon')]; [exists c; split; [apply elem_of_app; right; left|done]|exists c'; split; [apply elem_of_app; by left|done]].
      * intros (c' & [Hc'|Hc'%elem_of_list_singleton]%elem_of_app & Hon'); [right; eauto|left; by subst].
  - cbn beta. intros [tl num] d1 (Hr1 & He1 & Hq1 & Hl1 & Hv1). cbn [fst snd] in *.
    assert (Htl : tl <> []) by (intros ->; destruct cs; done).
    apply may_bnd. eapply may_mono; [apply tree_spec; [done|done|done|lia]|]. cbn beta.
    intros x d2 (Hr2 & He2 & Hv2 & Hs2 & Hx). apply may_ret. split; [done|]. split; [by eapply ext_trans|]. split.
    + intros ->. unfold better. destruct Hs2 as [k ->]. cbn. done.
    + destruct (better _ _ _ _); [|constructor]. constructor; [|constructor]. cbn [fst snd]. split; [done|]. split; [done|].
      intros env. rewrite Hx. apply eq_iff_eq_true. by rewrite Hv1, Hcov.
Qed.
End tie.

(* ---- the pass ---- *)
Lemma consider_in b c : consider b c = b \/ consider b c = c.
Proof. unfold consider. destruct (better _ _ _ _); auto. Qed.
Lemma considers_in cands : forall b, foldl consider b cands = b \/ foldl consider b cands ∈ cands.
Proof.
  induction cands as [|c cands IH]; intros b; cbn [foldl]; [by left|].
  destruct (IH (consider b c)) as [E|?]; [|right; by right]. rewrite E. destruct (consider_in b c) as [->| ->]; [by left|right; left].
Qed.
Lemma considers_some cands : Forall (fun c : arrival * nat => is_Some c.1.2) cands -> forall b, is_Some b.1.2 \/ cands <> [] -> is_Some (foldl consider b cands).1.2.
Proof.
  induction 1 as [|c cands Hc Hcs IH]; intros b Hb; cbn [foldl]; [by destruct Hb|]. apply IH. left.
  unfold consider. destruct (better c.1.2 c.2 b.1.2 b.2) eqn:E; [done|]. destruct Hb as [?|_]; [done|].
  destruct b as [[bf [bl|]] bs]; [by eexists|]. unfold better in E. destruct Hc as [k Hk]. cbn [fst snd] in E. rewrite Hk in E. done.
Qed.

Lemma not_const0 t : tt_wf t -> tt_is_const0 t = false -> exists a, tt_eval t a = true.
Proof.
  intros Hw Hz. unfold tt_is_const0 in Hz. assert (H : exists b, In b (tb t) /\ b = true).
  { induction (tb t) as [|[] l IH]; [done|exists true; split; [by left|done]|]. destruct (IH Hz) as (b & ? & ?). exists b. split; [by right|done]. }
  destruct H as (b & Hb & ->).
  apply (In_nth _ _ false) in Hb as (m & Hm & E). rewrite Hw in Hm. exists (Nat.testbit m). rewrite <- get_bit_eval by done. exact E.
Qed.

Section run.
Context {D : Type}.
Variables (T : Prop) (fn : rebalance) (crit : option ((nat -> bool) * (nat -> nat))) (s : aig) (x : list (cutset D) * cache).
Hypothesis (Hfn : rebalances T fn) (W : network s) (Hci : length (ins s) = npi s) (Hco : length (outs s) = npo s) (Hlen : length x.1 = size s).
Hypothesis (Hcut : forall n cs c, is_gate s n -> x.1 !! n = Some cs -> c ∈ vis cs ->
  (exists t, cache_get (fid c) x.2 = Some t /\ tt_wf t /\ cut_function s n (lvs c) t) /\
  forall l, l ∈ lvs c -> (l <> n \/ lvs c = [n]) /\ rtc (fanin s) n l).
Hypothesis (Hcand : forall n, in_use s n -> is_gate s n -> exists cs c t, x.1 !! n = Some cs /\ c ∈ vis cs /\ length (lvs c) <> 1 /\
  cache_get (fid c) x.2 = Some t /\ tt_is_const0 t = false).

Definition img (d : aig) (f : signal) (n : nat) : Prop := valid d f /\ forall env v, valuation s env v -> sval (ev d env) f = v n.
Definition mimg (d : aig) (m : amap) (n : nat) : Prop := img d (m n).1 n /\ is_Some (m n).2.
Lemma img_ext d d' f n : ext d d' -> img d f n -> img d' f n.
Proof. intros He [Hv H]. split; [by eapply ext_valid|]. intros env v V. rewrite (ext_sval d d' env f He Hv). by apply H. Qed.
Lemma mimg_ext d d' m n : ext d d' -> mimg d m n -> mimg d' m n.
Proof. intros He [H ?]. split; [by eapply img_ext|done]. Qed.
Lemma mimg_set d m n f l k : mimg d m k \/ k = n -> img d f n -> is_Some l -> mimg d (setv m n (f, l)) k.
Proof.
  intros H Hi Hl. unfold mimg. destruct (decide (k = n)) as [->|Hk]; [by rewrite setv_eq|rewrite setv_ne by done]. by destruct H.
Qed.

Lemma cuts_spec n d m cs : is_gate s n -> in_use s n -> reachable d -> x.1 !! n = Some cs ->
  (forall l, l <> n -> rtc (fanin s) n l -> mimg d m l) ->
  may T (foldM (try_cut fn x.2 m) ((Sig 0 false, None), 0) (vis cs)) d (fun b d' => reachable d' /\ ext d d' /\ img d' b.1.1 n /\ is_Some b.1.2).
Proof.
  intros Hg Hu Hr Ecs Hl.
  eapply may_mono; [apply (foldM_may T _ (fun p (b : arrival * nat) d' => reachable d' /\ ext d d' /\
    (is_Some b.1.2 -> img d' b.1.1 n) /\ (b.1.2 = None -> forall c t, c ∈ p -> cache_get (fid c) x.2 = Some t -> length (lvs c) = 1 \/ tt_is_const0 t = true)))|].
  - split; [done|]. split; [apply ext_refl|]. split; [by intros [? ?]|]. by intros _ c t ?%elem_of_nil.
  - intros p c q b d1 Ep (Hr1 & He1 & Hb1 & Hb2). unfold try_cut.
    assert (Hc : c ∈ vis cs) by (rewrite Ep; apply elem_of_app; right; left).
    destruct (Hcut n cs c Hg Ecs Hc) as [(t & Et & Ht & Hnv & Hf) Hlv].
    destruct (decide (length (lvs c) = 1)) as [H1|H1].
    { apply may_ret. split; [done|]. split; [done|]. split; [done|]. intros Hn c' t' [Hc'|Hc'%elem_of_list_singleton]%elem_of_app; [by apply Hb2|subst; by left]. }
    apply may_bnd. eapply may_lift; [exact Et|]. destruct (tt_is_const0 t) eqn:Ez.
    { apply may_ret. split; [done|]. split; [done|]. split; [done|]. intros Hn c' t' [Hc'|Hc'%elem_of_list_singleton]%elem_of_app Et'; [by apply Hb2|].
      subst c'. rewrite Et in Et'. injection Et' as <-. by right. }
    assert (Hm : forall l, l ∈ lvs c -> mimg d1 m l).
    { intros l Hin. destruct (Hlv l Hin) as [[Hne|E] Hp]; [|rewrite E in H1; done]. eapply mimg_ext; [done|]. by apply Hl. }
    apply may_bnd. eapply may_mono; [apply (Hfn t (map m (lvs c)) b.1.2 b.2 d1 Ht)|].
    + by apply not_const0.
    + by rewrite map_length.
    + done.
    + apply Forall_forall. intros y (l & -> & Hin)%elem_of_list_fmap. by destruct (Hm l Hin) as [[? _] ?].
    + cbn beta. intros cands d2 (Hr2 & He2 & Hne & Hcs). apply may_ret. split; [done|]. split; [by eapply ext_trans|].
      assert (Hok : Forall (fun y : arrival * nat => img d2 y.1.1 n /\ is_Some y.1.2) cands).
      { eapply Forall_impl; [exact Hcs|]. cbn beta. intros y (Hv & Hs & Hy). split; [|done]. split; [done|]. intros env v V.
        rewrite Hy, <- (Hf env v V). apply eval_ext. intros k Hk. unfold input_values. rewrite map_lookup.
        destruct (lookup_lt_is_Some_2 (lvs c) k) as [l Hkl]; [lia|]. rewrite Hkl. cbn.
        destruct (Hm l) as [[_ H] _]; [by eapply elem_of_list_lookup_2|]. by apply H. }
      assert (Hsome : is_Some (foldl consider b cands).1.2).
      { apply considers_some; [eapply Forall_impl; [exact Hok|]; by intros y [_ ?]|]. destruct b as [[bf [bl|]] bs]; [left; by eexists|right; by apply Hne]. }
      split; [|intros E; rewrite E in Hsome; by destruct Hsome].
      intros _. destruct (considers_in cands b) as [E|Hin].
      * rewrite E in *. eapply img_ext; [exact He2|]. by apply Hb1.
      * rewrite Forall_forall in Hok. by apply Hok.
  - cbn beta. intros b d1 (Hr1 & He1 & Hb1 & Hb2). split; [done|]. split; [done|].
    destruct (Hcand n Hu Hg) as (cs' & c & t & Ecs' & Hc & H1 & Et & Hz). rewrite Ecs in Ecs'. injection Ecs' as <-.
    assert (Hs : is_Some b.1.2). { destruct (b.1.2) as [k|] eqn:E; [by eexists|]. destruct (Hb2 eq_refl c t Hc Et); congruence. }
    split; [by apply Hb1|done].
Qed.

Lemma img_grows d d' f n : grows d d' -> img d f n -> img d' f n.
Proof.
  intros G [Hv Hval]. split; [by eapply grows_valid|]. intros env v V. rewrite <- (Hval env v V). unfold sval. by rewrite (grows_ev d d').
Qed.

Lemma inputs_spec nb : 0 < nb -> exists m d, balancing_inputs s (aig_init_n nb) = Some (m, d) /\ reachable d /\
  npi d = npi s /\ length (ins d) = npi s /\ outs d = [] /\ npo d = 0 /\ forall n, n ∈ 0 :: ins s -> mimg d m n.
Proof.
  intros Hnb. assert (Hr0 : reachable (aig_init_n nb)) by (by constructor).
  pose proof (net_ins_nodup s W) as Hnd. apply NoDup_cons in Hnd as [H0 Hnd].
  unfold balancing_inputs. rewrite (pis_ins s) by done.
  assert (Hwp : wp (foldM (fun m n => let! f := create_pi in ret (setv m n (f, Some 0))) (fun _ => (Sig 0 false, Some 0)) (ins s)) (aig_init_n nb)
    (fun m d => reachable d /\ length (ins d) = length (ins s) /\ npi d = length (ins s) /\ outs d = [] /\ npo d = 0 /\
      forall n, n ∈ 0 :: ins s -> mimg d m n)).
  { apply (foldM_wp _ (fun p (m : amap) d => reachable d /\ length (ins d) = length p /\ npi d = length p /\ outs d = [] /\ npo d = 0 /\
      forall n, n ∈ 0 :: p -> mimg d m n)).
    - split; [done|]. do 4 (split; [done|]). intros n Hn%elem_of_list_singleton. subst. split; [|by eexists].
      pose proof (reachable_wf _ Hr0) as W0. split; [by apply (valid_const _ false)|]. intros env v V. cbn [fst].
      rewrite (val_const _ _ _ V). by apply (sval_const _ env false).
    - intros p pi q m d Epq (Hr & Hli & Hnpi & Ho & Hnpo & Hm). apply wp_bnd.
      eapply wp_mono; [by apply create_pi_r|]. cbn beta. intros f d' (Hr' & -> & Hk & Hi' & Ho' & Hp' & Hpo' & _). apply wp_ret.
      assert (G : grows d d') by (split; [rewrite Hk|rewrite Hi'|rewrite Ho'; exists []; by rewrite app_nil_r]; by eexists).
      assert (Hpi : ins s !! length p = Some pi) by (rewrite Epq; by apply list_lookup_middle).
      assert (Him : img d' (Sig (size d) false) pi).
      { split; [unfold valid, size; cbn; rewrite Hk, app_length; cbn; lia|]. intros env w V. unfold sval. cbn.
        rewrite (val_input _ _ _ V _ _ Hpi). rewrite (ev_input d' env (length p)); [by destruct (env _)|by apply reachable_wf|].
        rewrite Hi', <- Hli. apply lookup_snoc_eq. }
      split; [done|]. rewrite Hi', app_length, Hli, Hp', Hnpi, Ho', Hpo', app_length. cbn [length].
      split; [done|]. split; [lia|]. do 2 (split; [done|]).
      intros n Hn. apply mimg_set; [|done|by eexists]. rewrite app_comm_cons in Hn.
      apply elem_of_app in Hn as [Hn|Hn%elem_of_list_singleton]; [left|by right]. destruct (Hm n Hn). split; [by eapply img_grows|done]. }
  apply wp_elim in Hwp as (m & d & E & Hr & Hli & Hnpi & Ho & Hnpo & Hm). exists m, d.
  split; [exact E|]. split; [done|]. split; [congruence|]. split; [congruence|]. done.
Qed.

Lemma create_gate d m n a b : ks s !! n = Some (a, b) -> n <> 0 -> a <> b -> reachable d -> mimg d m (sidx a) -> mimg d m (sidx b) ->
  wp (create_and (sxor (m (sidx a)).1 (scompl a)) (sxor (m (sidx b)).1 (scompl b))) d (fun f d' => reachable d' /\ ext d d' /\ img d' f n).
Proof.
  intros E Hn Hab Hr [[Ha1 Ha2] _] [[Hb1 Hb2] _]. eapply wp_mono; [apply create_and_r; [done|by apply valid_sxor|by apply valid_sxor]|].
  cbn beta. intros f d' (Hr' & He & Hv & Hval). split; [done|]. split; [done|]. split; [done|]. intros env v V.
  rewrite Hval. rewrite !sval_sxor. rewrite (Ha2 env v V), (Hb2 env v V). by rewrite (val_gate _ _ _ V n a b E).
Qed.

Lemma nodes_spec l m d : topo_order (aig_fan s) (0 :: ins s) (map sidx (outs s)) l -> Forall (fun n => n < size s) l ->
  reachable d -> (forall n, n ∈ 0 :: ins s -> mimg d m n) ->
  may T (foldM (balancing_node fn crit s x) m l) d (fun m' d' => reachable d' /\ ext d d' /\ forall n, n ∈ l -> mimg d' m' n).
Proof.
  intros To Hlt Hr Hm. rewrite Forall_forall in Hlt. pose proof (listed_in_use s l W To) as Hl.
  assert (Hclosed : forall p n q c, l = p ++ n :: q -> fanin s n c -> c ∈ p).
  { intros p n q c E Hc. destruct (to_after _ _ _ _ To (length p) n c) as (j & Hj & Ej).
    { rewrite E. by apply list_lookup_middle. } { by apply edge_fanin. }
    apply elem_of_list_lookup. exists j. rewrite E, lookup_app_l in Ej by lia. done. }
  assert (Hcone : forall a b, rtc (fanin s) a b -> forall p q, l = p ++ q -> a ∈ p -> b ∈ p).
  { induction 1 as [a|a c b Hac _ IH]; intros p q E Ha; [done|]. apply (IH p q E).
    apply elem_of_list_split in Ha as (p1 & p2 & ->). rewrite <- app_assoc in E. cbn in E.
    apply elem_of_app. left. by eapply Hclosed. }
  eapply may_mono; [apply (foldM_may T _ (fun p (m' : amap) d' => reachable d' /\ ext d d' /\
    (forall n, n ∈ 0 :: ins s -> mimg d' m' n) /\ forall n, n ∈ p -> mimg d' m' n))|].
  - split; [done|]. split; [apply ext_refl|]. split; [done|]. by intros n ?%elem_of_nil.
  - intros p n q m1 d1 Epq (Hr1 & He1 & Hs1 & Hp1).
    assert (Hn : n ∈ l) by (rewrite Epq; apply elem_of_app; right; left).
    unfold balancing_node. apply may_bnd. destruct (is_pi_some s n (Hlt n Hn)) as [pi Epi]. eapply may_lift; [exact Epi|].
    destruct (source_or_gate s n W (Hlt n Hn)) as [Hsrc|Hg].
    { assert (n = 0 \/ pi = true) as Hpi.
      { apply elem_of_cons in Hsrc as [->|Hi]; [by left|]. right. unfold is_pi in Epi. apply elem_of_list_lookup in Hi as [k Hk].
        destruct (net_in _ W k n Hk) as [_ E]. rewrite E in Epi. cbn in Epi. rewrite bool_decide_eq_true_2 in Epi by done.
        injection Epi as <-. cbn. apply bool_decide_eq_true_2. apply lookup_lt_Some in Hk. rewrite sdata_sig_of_data. lia. }
      rewrite decide_True by done. apply may_ret. split; [done|]. split; [done|]. split; [done|].
      intros k [Hk|Hk%elem_of_list_singleton]%elem_of_app; [by apply Hp1|subst; by apply Hs1]. }
    assert (Hu : in_use s n). { destruct (proj1 (Hl n) Hn) as [?|Hsrc]; [done|]. destruct Hg as (a & b & E & Hn0 & Hab).
      destruct (source_no_fanin s n (sidx a) W Hsrc). exists a, b. auto. }
    assert (pi = false) as -> by (pose proof (is_pi_gate s n Hg); congruence).
    rewrite decide_False by (destruct Hg as (? & ? & ? & ? & ?); naive_solver).
    assert (Hbelow : forall c, c <> n -> rtc (fanin s) n c -> mimg d1 m1 c).
    { intros c Hc Hrt. apply Hp1. apply rtc_inv in Hrt as [E|(y & Hy & Hrt')]; [by destruct Hc|].
      apply (Hcone y c Hrt' p (n :: q) Epq). by eapply Hclosed. }
    assert (Hset : forall d2 f lv, reachable d2 -> ext d1 d2 -> img d2 f n -> is_Some lv ->
      reachable d2 /\ ext d d2 /\ (forall k, k ∈ 0 :: ins s -> mimg d2 (setv m1 n (f, lv)) k) /\ forall k, k ∈ p ++ [n] -> mimg d2 (setv m1 n (f, lv)) k).
    { intros d2 f lv Hr2 He2 Hi Hlv. split; [done|]. split; [by eapply ext_trans|]. split.
      - intros k Hk. apply mimg_set; [|done|done]. left. eapply mimg_ext; [exact He2|by apply Hs1].
      - intros k Hk. apply mimg_set; [|done|done]. apply elem_of_app in Hk as [Hk|Hk%elem_of_list_singleton]; [left|by right].
        eapply mimg_ext; [exact He2|by apply Hp1]. }
    assert (Hcuts : may T (let! cs := lift (x.1 !! n) in let! b := foldM (try_cut fn x.2 m1) ((Sig 0 false, None), 0) (vis cs) in ret (setv m1 n b.1)) d1
      (fun m2 d2 => reachable d2 /\ ext d d2 /\ (forall k, k ∈ 0 :: ins s -> mimg d2 m2 k) /\ forall k, k ∈ p ++ [n] -> mimg d2 m2 k)).
    { destruct (lookup_lt_is_Some_2 x.1 n) as [cs Ecs]; [rewrite Hlen; by apply Hlt|].
      apply may_bnd. eapply may_lift; [exact Ecs|]. apply may_bnd. eapply may_mono; [by apply (cuts_spec n d1 m1 cs)|].
      cbn beta. intros [[f lv] sz] d2 (Hr2 & He2 & Hi & Hs). apply may_ret. by apply Hset. }
    destruct crit as [[on_path level]|]; [|exact Hcuts]. destruct (on_path n); [exact Hcuts|].
    destruct Hg as (a & b & E & Hn0 & Hab). apply may_bnd. eapply may_lift; [exact E|]. apply may_bnd. cbn [fst snd].
    assert (Hf : forall f, f = a \/ f = b -> mimg d1 m1 (sidx f)).
    { intros f Hf. apply Hp1. eapply Hclosed; [exact Epq|]. exists a, b. split; [done|]. destruct Hf as [->| ->]; auto. }
    apply wp_may. eapply wp_mono; [apply (create_gate d1 m1 n a b E Hn0 Hab Hr1); apply Hf; auto|].
    cbn beta. intros f d2 (Hr2 & He2 & Hi). apply wp_ret. apply Hset; [done..|by eexists].
  - cbn beta. intros m' d' (? & ? & _ & H). auto.
Qed.

Lemma outs_spec (l : list nat) m d : (forall f, f ∈ outs s -> sidx f ∈ l) -> (forall n, n ∈ l -> mimg d m n) -> reachable d -> npi d = npi s ->
  length (ins d) = npi s -> outs d = [] -> npo d = 0 ->
  wp (mapM (fun f => create_po (sxor (m (sidx f)).1 (scompl f))) (pos s)) d
    (fun _ d' => reachable d' /\ npi d' = npi s /\ length (ins d') = npi s /\ npo d' = length (pos s) /\ Forall2 (image s d') (pos s) (outs d')).
Proof.
  intros Hl Hm Hr Hnpi Hli Ho Hnpo.
  eapply wp_mono; [apply (mapM_wp _ (fun p (_ : list nat) d' => grows d d' /\ reachable d' /\ npi d' = npi s /\ length (ins d') = npi s /\
    npo d' = length p /\ Forall2 (image s d') p (outs d')))|].
  - split; [split; exists []; by rewrite app_nil_r|]. do 4 (split; [done|]). rewrite Ho. constructor.
  - intros p o q r y Epq (G & Hry & Hnpi' & Hli' & Hnpo' & HF).
    assert (Hin : o ∈ outs s). { eapply (take_elem (outs s) (npo s)). change (o ∈ pos s). rewrite Epq. apply elem_of_app. right. left. }
    destruct (Hm (sidx o) (Hl o Hin)) as [[Hv1 Hv2] _].
    assert (Him : image s d o (sxor (m (sidx o)).1 (scompl o))).
    { split; [by apply valid_sxor|]. intros env v V. rewrite sval_sxor, (Hv2 env v V). done. }
    eapply wp_mono; [apply create_po_r; [done|by apply (image_grows s d y o)]|]. cbn beta.
    intros i d' (Hr' & Hk & Hi' & Ho' & Hp' & Hpo' & _).
    assert (G' : grows y d') by (split; [rewrite Hk; exists []; by rewrite app_nil_r|rewrite Hi'; exists []; by rewrite app_nil_r|rewrite Ho'; by eexists]).
    split; [by eapply grows_trans|]. split; [done|]. split; [congruence|]. split; [congruence|]. split; [rewrite Hpo', Hnpo', app_length; cbn; lia|].
    rewrite Ho'. apply Forall2_app.
    + eapply Forall2_impl; [exact HF|]. intros a b Hab. by eapply image_grows.
    + constructor; [|constructor]. eapply image_grows; [exact G'|]. by eapply image_grows.
  - cbn beta. intros _ y (_ & H). exact H.
Qed.

Lemma balancing_ok nb : 0 < nb ->
  match balancing fn crit nb s (Some x) with
  | None => T
  | Some d => reachable d /\ is_combinational d = true /\ npi d = npi s /\ npo d = npo s /\ forall env l, computes s env l <-> computes d env l
  end.
Proof.
  intros Hnb. unfold balancing.
  destruct (inputs_spec nb Hnb) as (m & d & -> & Hr & Hnpi & Hli & Ho & Hnpo & Hm). cbn [mbind option_bind].
  destruct (aig_topo_spec s W) as (l & -> & To & Hlt). cbn [mbind option_bind].
  pose proof (nodes_spec l m d To Hlt Hr Hm) as Hn. unfold may in Hn.
  destruct (foldM (balancing_node fn crit s x) m l d) as [[m' d1]|]; [|exact Hn]. cbn [mbind option_bind].
  destruct Hn as (Hr1 & [_ Ei Eo En Em _] & Hm').
  assert (Hlo : forall f, f ∈ outs s -> sidx f ∈ l).
  { intros f Hf. apply (to_elem _ _ _ _ To). right. exists (sidx f). split; [by apply elem_of_list_fmap_1|done]. }
  pose proof (outs_spec l m' d1 Hlo Hm' Hr1) as Hw.
  apply wp_elim in Hw as (u & y & -> & Hry & Hynpi & Hyli & Hynpo & HF); [|congruence..]. cbn [mbind option_bind].
  assert (Hlp : length (pos s) = npo s) by (unfold pos; rewrite take_length; lia).
  assert (Hlo' : length (outs y) = npo s) by (rewrite <- Hlp; symmetry; by eapply Forall2_length).
  destruct (C20_cleanup_preserves nb y Hnb) as (z & -> & Hrz & Hzpi & Hzpo & Hzc & Hcomp).
  { by apply wf_network, reachable_wf. }
  { apply bool_decide_eq_true_2. lia. }
  split; [done|]. split; [done|]. split; [congruence|]. split; [congruence|].
  assert (Hdir : forall env r, computes s env r -> computes y env r).
  { intros env r (v & V & ->). exists (ev y env). split; [by apply ev_valuation, reachable_wf|].
    assert (pos y = outs y) as -> by (unfold pos; apply firstn_all2; lia).
    clear -HF V. induction HF as [|f g k r [_ H] HF IH]; [done|]. cbn. rewrite (H env v V). by f_equal. }
  intros env r. rewrite <- Hcomp. split; [apply Hdir|]. intros Hd.
  destruct (net_valuation s env W) as [v V].
  assert (Hs : computes s env (map (sval v) (pos s))) by (by exists v).
  by rewrite (computes_unique y env r _ (wf_network _ (reachable_wf _ Hry)) Hd (Hdir _ _ Hs)).
Qed.
End run.
