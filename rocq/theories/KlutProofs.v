From Verif Require Import Base Aig Tt TtProofs TtCache TtCacheProofs Klut KlutSem.

Definition same_node (x y : knode) : Prop := kch x = kch y /\ kfn x = kfn y /\ kvl x = kvl y.

Record kgrows (s s' : klut) : Prop := {
  kg_n : forall n x, kn s !! n = Some x -> exists y, kn s' !! n = Some y /\ same_node x y;
  kg_ins : exists t, kins s' = kins s ++ t;
  kg_outs : exists t, kouts s' = kouts s ++ t;
  kg_c : exists t, cdata (kc s') = cdata (kc s) ++ t
}.

Definition isci (x : knode) : bool := bool_decide (kvl x = 1%N) || bool_decide (kvl x = 3%N).

Record kwf (s : klut) : Prop := {
  kw_size : 2 <= ksize s;
  kw_cinv : cinv (kc s);
  kw_room : (N.of_nat (length (cdata (kc s))) <= 2 ^ 31)%N;
  kw_base : exists t, cdata (kc s) = cdata (kc klut_init) ++ t;
  kw_gate : forall n x, 1 < n -> kn s !! n = Some x -> isci x = false ->
     Forall (fun c => c < n) (kch x) /\
     exists f, cache_get (kfn x) (kc s) = Some f /\ tt_wf f /\ nv f = length (kch x);
  kw_in : forall k n, kins s !! k = Some n -> 1 < n /\ exists x, kn s !! n = Some x /\ isci x = true;
  kw_ci : forall n x, 1 < n -> kn s !! n = Some x -> isci x = true -> n ∈ kins s;
  kw_nd : NoDup (kins s);
  kw_out : Forall (fun f => f < ksize s) (kouts s)
}.

Lemma kgrows_refl s : kgrows s s.
Proof. split; [|exists []; by rewrite app_nil_r..]. intros n x H. exists x. done. Qed.
Lemma kgrows_trans s1 s2 s3 : kgrows s1 s2 -> kgrows s2 s3 -> kgrows s1 s3.
Proof.
  intros [A1 [t1 B1] [u1 C1] [w1 D1]] [A2 [t2 B2] [u2 C2] [w2 D2]]. split.
  - intros n x Hx. destruct (A1 n x Hx) as (y & Hy & ? & ? & ?). destruct (A2 n y Hy) as (z & Hz & ? & ? & ?).
    exists z. split; [done|]. unfold same_node. repeat split; congruence.
  - exists (t1 ++ t2). by rewrite B2, B1, app_assoc.
  - exists (u1 ++ u2). by rewrite C2, C1, app_assoc.
  - exists (w1 ++ w2). by rewrite D2, D1, app_assoc.
Qed.
Lemma kgrows_size s s' : kgrows s s' -> ksize s <= ksize s'.
Proof.
  intros H. destruct (decide (ksize s = 0)) as [E|Hne]; [lia|].
  destruct (lookup_lt_is_Some_2 (kn s) (ksize s - 1)) as [x Hx]; [unfold ksize in *; lia|].
  destruct (kg_n s s' H _ _ Hx) as (y & Hy & _). apply lookup_lt_Some in Hy. unfold ksize in *. lia.
Qed.
Lemma kgrows_get s s' l f : kgrows s s' -> cache_get l (kc s) = Some f -> cache_get l (kc s') = Some f.
Proof.
  intros [_ _ _ [t Ht]] H. unfold cache_get in *. rewrite Ht.
  destruct (cdata (kc s) !! N.to_nat (l / 2)) as [e|] eqn:E; [|done].
  rewrite (lookup_app_l_Some _ _ _ _ E). done.
Qed.
Lemma same_isci x y : same_node x y -> isci x = isci y.
Proof. intros (_ & _ & E). unfold isci. by rewrite E. Qed.
Lemma kis_ci_isci s n x : kn s !! n = Some x -> kis_ci s n = Some (isci x).
Proof. intros H. unfold kis_ci. by rewrite H. Qed.

(* a valuation of the larger network is one of the smaller network *)
Lemma kvaluation_shrink s s' env v : kwf s -> kgrows s s' -> kvaluation s' env v -> kvaluation s env v.
Proof.
  intros Hw Hg [H0 H1 Hi Hgt]. split; [done|done| |].
  - intros k n Hk. destruct (kg_ins _ _ Hg) as [t Ht]. apply Hi. rewrite Ht. by apply lookup_app_l_Some.
  - intros n x f Hn Hx Hci Hf. destruct (kg_n _ _ Hg n x Hx) as (y & Hy & Hs).
    rewrite (kis_ci_isci _ _ _ Hx) in Hci.
    rewrite (Hgt n y f); [|done|done| |].
    + destruct Hs as (-> & _). done.
    + rewrite (kis_ci_isci _ _ _ Hy). by rewrite <- (same_isci _ _ Hs).
    + destruct Hs as (_ & <- & _). by eapply kgrows_get.
Qed.

Lemma kvaluation_unique s env v v' : kwf s -> kvaluation s env v -> kvaluation s env v' ->
  forall n, n < ksize s -> v n = v' n.
Proof.
  intros Hw [A0 A1 Ai Ag] [B0 B1 Bi Bg] n. induction n as [n IH] using lt_wf_ind. intros Hn.
  destruct n as [|[|n]]; [congruence|congruence|].
  destruct (lookup_lt_is_Some_2 (kn s) (S (S n)) Hn) as [x Hx].
  destruct (isci x) eqn:E.
  - pose proof (kw_ci s Hw (S (S n)) x ltac:(lia) Hx E) as Hin.
    apply elem_of_list_lookup in Hin as [k Hk]. by rewrite (Ai k), (Bi k).
  - destruct (kw_gate s Hw (S (S n)) x ltac:(lia) Hx E) as (Hc & f & Hf & Hwf & Hnv).
    rewrite (Ag _ x f), (Bg _ x f); try done; try lia; try (by rewrite (kis_ci_isci _ _ _ Hx), E).
    apply eval_ext. intros k Hk. destruct (kch x !! k) as [c|] eqn:Hck; [|done].
    rewrite Forall_forall in Hc. specialize (Hc c (elem_of_list_lookup_2 _ _ _ Hck)). apply IH; lia.
Qed.

Lemma kvaluation_exists s env : kwf s -> exists v, kvaluation s env v.
Proof.
  intros Hw.
  assert (G : forall m, exists v, v 0 = false /\ v 1 = true /\
    (forall k n, kins s !! k = Some n -> v n = env k) /\
    (forall n x f, 1 < n -> n < m -> kn s !! n = Some x -> kis_ci s n = Some false ->
      cache_get (kfn x) (kc s) = Some f ->
      v n = tt_eval f (fun k => match kch x !! k with Some c => v c | None => false end))).
  { induction m as [|m (v & H0 & H1 & Hi & Hg)].
    - exists (fun n => if decide (n = 0) then false else if decide (n = 1) then true else
                match list_find (fun i => i = n) (kins s) with Some (k, _) => env k | None => false end).
      split; [done|]. split; [done|]. split; [|intros; lia].
      intros k n Hk. destruct (kw_in s Hw k n Hk) as [Hn _]. rewrite !decide_False by lia.
      assert (list_find (fun i => i = n) (kins s) = Some (k, n)) as ->.
      { apply list_find_Some. split; [done|]. split; [done|].
        intros j y Hj Hlt ->. pose proof (NoDup_lookup _ _ _ _ (kw_nd s Hw) Hk Hj). lia. }
      done.
    - destruct (decide (1 < m)) as [Hm|Hm].
      2: { exists v. repeat split; try done. intros n x f ??. apply Hg; lia. }
      destruct (kn s !! m) as [x|] eqn:Hx.
      2: { exists v. repeat split; try done. intros n y f ?? Hy. destruct (decide (n = m)); [congruence|].
           apply Hg; [done|lia|done]. }
      destruct (isci x) eqn:E.
      { exists v. repeat split; try done. intros n y f ?? Hy Hc. destruct (decide (n = m)) as [->|?].
        - rewrite (kis_ci_isci _ _ _ Hx) in Hc. congruence.
        - apply Hg; [done|lia|done|done]. }
      destruct (kw_gate s Hw m x Hm Hx E) as (Hc & f & Hf & _).
      set (b := tt_eval f (fun k => match kch x !! k with Some c => v c | None => false end)).
      exists (fun n => if decide (n = m) then b else v n).
      rewrite !decide_False by lia. split; [done|]. split; [done|]. split.
      + intros k n Hk. rewrite decide_False; [by apply Hi|]. intros ->.
        destruct (kw_in s Hw k m Hk) as (_ & y & Hy & Ey). congruence.
      + assert (Hcl : forall n y, 1 < n -> n < S m -> kn s !! n = Some y -> isci y = false ->
           forall c, c ∈ kch y -> (if decide (c = m) then b else v c) = v c).
        { intros n y Hn1 Hn2 Hy Ey c Hcin. destruct (kw_gate s Hw n y Hn1 Hy Ey) as (Hlt & _).
          rewrite Forall_forall in Hlt. specialize (Hlt c Hcin). rewrite decide_False by lia. done. }
        intros n y g Hn1 Hn2 Hy Hcy Hgy.
        assert (Ey : isci y = false) by (rewrite (kis_ci_isci _ _ _ Hy) in Hcy; congruence).
        transitivity (tt_eval g (fun k => match kch y !! k with Some c => v c | None => false end)).
        * destruct (decide (n = m)) as [->|Hne].
          -- assert (y = x) as -> by congruence. assert (g = f) as -> by congruence. done.
          -- apply Hg; [done|lia|done|done|done].
        * apply eval_ext. intros k _. destruct (kch y !! k) as [c|] eqn:Hck; [|done].
          symmetry. eapply Hcl; [exact Hn1|done|done|done|]. by eapply elem_of_list_lookup_2. }
  destruct (G (ksize s)) as (v & H0 & H1 & Hi & Hg). exists v. split; try done.
  intros n x f Hn Hx. apply Hg; [done| |done]. by apply lookup_lt_Some in Hx.
Qed.

(* --- fanout increments only touch the counters --- *)
Lemma kincr_spec f s : f < ksize s -> exists s', kincr f s = Some s' /\ ksize s' = ksize s /\
  kins s' = kins s /\ kouts s' = kouts s /\ kc s' = kc s /\
  (forall n x, kn s !! n = Some x -> exists y, kn s' !! n = Some y /\ same_node x y) /\
  (forall n y, kn s' !! n = Some y -> exists x, kn s !! n = Some x /\ same_node x y).
Proof.
  intros Hf. destruct (lookup_lt_is_Some_2 (kn s) f Hf) as [z Hz]. unfold kincr. rewrite Hz. cbn.
  eexists. split; [done|]. unfold ksize, set_kn; cbn. rewrite insert_length.
  split; [done|]. split; [done|]. split; [done|]. split; [done|]. split.
  - intros n x Hx. destruct (decide (n = f)) as [->|Hne].
    + rewrite list_lookup_insert by done. eexists. split; [done|]. rewrite Hz in Hx. by injection Hx as ->.
    + rewrite list_lookup_insert_ne by done. by exists x.
  - intros n y Hy. destruct (decide (n = f)) as [->|Hne].
    + rewrite list_lookup_insert in Hy by done. injection Hy as <-. by exists z.
    + rewrite list_lookup_insert_ne in Hy by done. by exists y.
Qed.

Lemma same_node_trans x y z : same_node x y -> same_node y z -> same_node x z.
Proof. intros (?&?&?) (?&?&?). unfold same_node. repeat split; congruence. Qed.

Lemma kincrs_spec l : forall s, Forall (fun f => f < ksize s) l ->
  exists s', kincrs l s = Some s' /\ ksize s' = ksize s /\
  kins s' = kins s /\ kouts s' = kouts s /\ kc s' = kc s /\
  (forall n x, kn s !! n = Some x -> exists y, kn s' !! n = Some y /\ same_node x y) /\
  (forall n y, kn s' !! n = Some y -> exists x, kn s !! n = Some x /\ same_node x y).
Proof.
  induction l as [|f l IH]; intros s Hl.
  - exists s. cbn. repeat split; try done; intros n x Hx; exists x; done.
  - apply Forall_cons in Hl as [Hf Hl]. cbn [kincrs].
    destruct (kincr_spec f s Hf) as (s1 & -> & E1 & E2 & E3 & E4 & E5 & E6). cbn.
    destruct (IH s1) as (s2 & -> & F1 & F2 & F3 & F4 & F5 & F6); [by rewrite E1|].
    exists s2. split; [done|]. split; [congruence|]. split; [congruence|]. split; [congruence|]. split; [congruence|]. split.
    + intros n x Hx. destruct (E5 n x Hx) as (y & Hy & ?). destruct (F5 n y Hy) as (z & Hz & ?).
      exists z. split; [done|]. by eapply same_node_trans.
    + intros n z Hz. destruct (F6 n z Hz) as (y & Hy & ?). destruct (E6 n y Hy) as (x & Hx & ?).
      exists x. split; [done|]. by eapply same_node_trans.
Qed.

Lemma klut_init_wf : kwf klut_init.
Proof.
  split.
  - cbn; lia.
  - assert (G : forall l c, cinv c -> Forall tt_wf l -> length (cdata c) + length l <= 100 ->
       cinv (cache_inserts l c)).
    { induction l as [|t l IH]; intros c Hc Hl Hb; [done|].
      apply Forall_cons in Hl as [Ht Hl]. unfold cache_inserts. cbn [fold_left].
      destruct (cache_insert t c) as [lit c'] eqn:E.
      assert (Hlen : length (cdata c') <= S (length (cdata c))).
      { unfold cache_insert in E. destruct (assoc _ _); apply pair_equal_spec in E as [_ <-]; cbn; [lia|].
        rewrite app_length. cbn. lia. }
      cbn [length] in Hb.
      destruct (insert_spec c t lit c' Hc Ht E) as [Hc' _]; [lia|].
      apply IH; [done|done|cbn [snd]; lia]. }
    apply G; [apply cinv_empty| |cbn; lia]. repeat constructor; apply tab_wf.
  - vm_compute. done.
  - exists []. by rewrite app_nil_r.
  - intros n x Hn Hx. apply lookup_lt_Some in Hx. cbn in Hx. lia.
  - done.
  - intros n x Hn Hx. apply lookup_lt_Some in Hx. cbn in Hx. lia.
  - constructor.
  - constructor.
Qed.

Definition kbuilds (s : klut) (F : (nat -> bool) -> bool) (r : nat) (s' : klut) : Prop :=
  kwf s' /\ kgrows s s' /\ kins s' = kins s /\ kouts s' = kouts s /\ knpi s' = knpi s /\ knpo s' = knpo s /\
  r < ksize s' /\ forall env v, kvaluation s' env v -> v r = F v.

Lemma kincr_cnt f s s' : kincr f s = Some s' -> knpi s' = knpi s /\ knpo s' = knpo s /\ klat s' = klat s.
Proof. unfold kincr. destruct (kn s !! f); cbn; [|done]. by intros [= <-]. Qed.
Lemma kincrs_cnt l : forall s s', kincrs l s = Some s' -> knpi s' = knpi s /\ knpo s' = knpo s /\ klat s' = klat s.
Proof.
  induction l as [|f l IH]; cbn; intros s s' H; [by injection H as ->|].
  destruct (kincr f s) as [s1|] eqn:E; [|done]. apply kincr_cnt in E as (E1 & E2 & E3). apply IH in H as (F1 & F2 & F3).
  repeat split; congruence.
Qed.

Lemma kcreate_raw_wp s l lit f : kwf s -> Forall (fun c => c < ksize s) l ->
  cache_get lit (kc s) = Some f -> tt_wf f -> nv f = length l ->
  wp (kcreate_raw l lit) s (kbuilds s (fun v => tt_eval f (fun k => match l !! k with Some c => v c | None => false end))).
Proof.
  intros Hw Hl Hf Hwf Hnv. unfold wp, kcreate_raw.
  set (s0 := set_kn s (kn s ++ [KNode l lit 0 0])).
  assert (Hs0 : ksize s0 = S (ksize s)) by (unfold ksize, s0; cbn; rewrite app_length; cbn; lia).
  destruct (kincrs_spec l s0) as (s' & E & Es & Ei & Eo & Ec & H1 & H2).
  { rewrite Hs0. eapply Forall_impl; [exact Hl|]. cbn; lia. }
  rewrite E. cbn. pose proof (kincrs_cnt _ _ _ E) as (En1 & En2 & _).
  assert (Hnew : kn s0 !! ksize s = Some (KNode l lit 0 0)).
  { unfold s0, ksize; cbn. rewrite lookup_app_r by lia. by rewrite Nat.sub_diag. }
  assert (Hold : forall n x, kn s0 !! n = Some x -> n <> ksize s -> kn s !! n = Some x).
  { intros n x Hx Hne. unfold s0 in Hx; cbn in Hx. apply lookup_app_Some in Hx as [Hx|[Hge Hx]]; [done|].
    apply list_lookup_singleton_Some in Hx as [Hz _]. unfold ksize in Hne. lia. }
  assert (Hg : kgrows s s').
  { split.
    - intros n x Hx. apply H1. unfold s0; cbn. by apply lookup_app_l_Some.
    - exists []. by rewrite Ei, app_nil_r.
    - exists []. by rewrite Eo, app_nil_r.
    - exists []. by rewrite Ec, app_nil_r. }
  assert (Hw' : kwf s').
  { destruct Hw as [W1 W2 W3 W4 W5 W6 W7 W8 W9]. split.
    - lia.
    - by rewrite Ec.
    - by rewrite Ec.
    - by rewrite Ec.
    - intros n y Hn Hy Eci. destruct (H2 n y Hy) as (x & Hx & Hs).
      destruct Hs as (Hs1 & Hs2 & Hs3). rewrite <- Hs1, <- Hs2, Ec.
      destruct (decide (n = ksize s)) as [->|Hne].
      + rewrite Hnew in Hx. injection Hx as <-. cbn. split; [done|]. by exists f.
      + apply W5; [done|by apply Hold|]. rewrite <- Eci. apply same_isci. done.
    - rewrite Ei. intros k n Hk. destruct (W6 k n Hk) as (Hn & x & Hx & Hci). split; [done|].
      destruct (kg_n _ _ Hg n x Hx) as (y & Hy & Hs). exists y. split; [done|]. by rewrite <- (same_isci _ _ Hs).
    - rewrite Ei. intros n y Hn Hy Hci. destruct (H2 n y Hy) as (x & Hx & Hs).
      rewrite <- (same_isci _ _ Hs) in Hci.
      destruct (decide (n = ksize s)) as [->|Hne].
      + rewrite Hnew in Hx. injection Hx as <-. done.
      + apply (W7 n x); [done|by apply Hold|done].
    - by rewrite Ei.
    - rewrite Eo. eapply Forall_impl; [exact W9|]. cbn. lia. }
  split; [done|]. split; [done|]. split; [done|]. split; [done|]. split; [done|]. split; [done|]. split; [lia|].
  intros env v Hv. destruct (H1 _ _ Hnew) as (y & Hy & Hs1 & Hs2 & Hs3). cbn in *.
  rewrite (kv_gate _ _ _ Hv (ksize s) y f).
  - by rewrite <- Hs1.
  - destruct Hw. lia.
  - done.
  - rewrite (kis_ci_isci _ _ _ Hy). unfold isci. by rewrite <- Hs3.
  - by rewrite <- Hs2, Ec.
Qed.

Lemma kbuilds_eq s F G r s' : (forall v, F v = G v) -> kbuilds s F r s' -> kbuilds s G r s'.
Proof. intros E (A1&A2&A3&A4&A5&A6&A7&H). do 7 (split; [done|]). intros env v Hv. rewrite <- E. by eapply H. Qed.

Lemma base_get s lit f : kwf s -> cache_get lit (kc klut_init) = Some f -> cache_get lit (kc s) = Some f.
Proof.
  intros Hw H. destruct (kw_base s Hw) as [t Ht]. unfold cache_get in *. rewrite Ht.
  destruct (cdata (kc klut_init) !! N.to_nat (lit / 2)) as [e|] eqn:E; [|done].
  by rewrite (lookup_app_l_Some _ _ _ _ E).
Qed.

(* evaluation of the reserved functions *)
Lemma eval_word n w x : tt_eval (tt_word n w) x = N.testbit w (N.of_nat (idx n x)).
Proof. unfold tt_word. apply eval_tab. Qed.

Ltac kprim s lit n w :=
  eapply wp_mono;
  [apply (kcreate_raw_wp s _ lit (tt_word n w));
    [assumption|repeat constructor; assumption
    |apply base_get; [assumption|vm_compute; reflexivity]|apply tab_wf|reflexivity]
  |intros r s'; apply kbuilds_eq; intros v; rewrite eval_word; cbn [idx lookup list_lookup]].

Lemma kcreate_not_wp s a : kwf s -> a < ksize s -> wp (kcreate_not a) s (kbuilds s (fun v => negb (v a))).
Proof. intros Hw Ha. kprim s 3%N 1 1%N. by destruct (v a). Qed.
Lemma kcreate_and_wp s a b : kwf s -> a < ksize s -> b < ksize s ->
  wp (kcreate_and a b) s (kbuilds s (fun v => v a && v b)).
Proof. intros Hw Ha Hb. kprim s 4%N 2 8%N. by destruct (v a), (v b). Qed.
Lemma kcreate_or_wp s a b : kwf s -> a < ksize s -> b < ksize s ->
  wp (kcreate_or a b) s (kbuilds s (fun v => v a || v b)).
Proof. intros Hw Ha Hb. kprim s 6%N 2 0xe%N. by destruct (v a), (v b). Qed.
Lemma kcreate_lt_wp s a b : kwf s -> a < ksize s -> b < ksize s ->
  wp (kcreate_lt a b) s (kbuilds s (fun v => negb (v a) && v b)).
Proof. intros Hw Ha Hb. kprim s 8%N 2 4%N. by destruct (v a), (v b). Qed.
Lemma kcreate_le_wp s a b : kwf s -> a < ksize s -> b < ksize s ->
  wp (kcreate_le a b) s (kbuilds s (fun v => implb (v a) (v b))).
Proof. intros Hw Ha Hb. kprim s 11%N 2 0xd%N. by destruct (v a), (v b). Qed.
Lemma kcreate_xor_wp s a b : kwf s -> a < ksize s -> b < ksize s ->
  wp (kcreate_xor a b) s (kbuilds s (fun v => xorb (v a) (v b))).
Proof. intros Hw Ha Hb. kprim s 12%N 2 6%N. by destruct (v a), (v b). Qed.
Lemma kcreate_maj_wp s a b c : kwf s -> a < ksize s -> b < ksize s -> c < ksize s ->
  wp (kcreate_maj a b c) s (kbuilds s (fun v => (v a && v b) || (v a && v c) || (v b && v c))).
Proof. intros Hw Ha Hb Hc. kprim s 14%N 3 0xe8%N. by destruct (v a), (v b), (v c). Qed.
Lemma kcreate_ite_wp s a b c : kwf s -> a < ksize s -> b < ksize s -> c < ksize s ->
  wp (kcreate_ite a b c) s (kbuilds s (fun v => if v a then v b else v c)).
Proof. intros Hw Ha Hb Hc. kprim s 16%N 3 0xd8%N. by destruct (v a), (v b), (v c). Qed.
Lemma kcreate_xor3_wp s a b c : kwf s -> a < ksize s -> b < ksize s -> c < ksize s ->
  wp (kcreate_xor3 a b c) s (kbuilds s (fun v => xorb (v a) (xorb (v b) (v c)))).
Proof. intros Hw Ha Hb Hc. kprim s 18%N 3 0x96%N. by destruct (v a), (v b), (v c). Qed.

Lemma kbuilds_trans s s1 F r s2 : kgrows s s1 -> kins s1 = kins s -> kouts s1 = kouts s ->
  knpi s1 = knpi s -> knpo s1 = knpo s -> kbuilds s1 F r s2 -> kbuilds s F r s2.
Proof.
  intros Hg E1 E2 E3 E4 (?&?&?&?&?&?&?&?). split; [done|]. split; [by eapply kgrows_trans|].
  repeat split; congruence || done.
Qed.

Lemma ktree_reduce_wp (g : bool -> bool -> bool) (unit : bool) (cop : nat -> nat -> M klut nat) init :
  (forall x, g unit x = x) -> (forall x y z, g x (g y z) = g (g x y) z) -> (forall x, g x unit = x) ->
  (forall s a b, kwf s -> a < ksize s -> b < ksize s -> wp (cop a b) s (kbuilds s (fun v => g (v a) (v b)))) ->
  init < 2 -> (forall s env v, kvaluation s env v -> v init = unit) ->
  forall fuel l s, length l < fuel -> kwf s -> Forall (fun c => c < ksize s) l ->
  wp (tree_reduceM fuel cop init l) s (kbuilds s (fun v => foldr g unit (map v l))).
Proof.
  intros Hid Hassoc Hidr Hop Hinit Hiv. induction fuel as [|fuel IH]; intros l s Hf Hw Hl; [lia|].
  destruct l as [|x [|y [|z l]]]; cbn [tree_reduceM].
  - apply wp_ret. split; [done|]. split; [apply kgrows_refl|]. repeat split; try done.
    + pose proof (kw_size s Hw). lia.
    + intros env v Hv. by eapply Hiv.
  - apply wp_ret. apply Forall_cons in Hl as [Hx _]. split; [done|]. split; [apply kgrows_refl|].
    repeat split; try done. intros env v Hv. cbn. by rewrite Hidr.
  - apply Forall_cons in Hl as [Hx Hl]. apply Forall_cons in Hl as [Hy _].
    eapply wp_mono; [by apply Hop|]. intros f s'. apply kbuilds_eq. intros v. cbn. by rewrite Hidr.
  - set (L := x :: y :: z :: l) in *. set (m := length L / 2).
    assert (Hm : 0 < m /\ m < length L).
    { unfold m. split; [apply Nat.div_str_pos; cbn; lia|apply Nat.div_lt; cbn; lia]. }
    assert (Hl' := Hl). rewrite <- (take_drop m L) in Hl'. apply Forall_app in Hl' as [Hl1 Hl2].
    apply wp_bnd. eapply wp_mono; [apply IH; [|done|done]|].
    { rewrite take_length. lia. }
    intros fa s1 (Hw1 & Hg1 & A1 & A2 & A3 & A4 & Hv1 & Hval1).
    apply wp_bnd. eapply wp_mono; [apply IH; [|done|]|].
    { rewrite drop_length. lia. }
    { eapply Forall_impl; [exact Hl2|]. cbn. intros f Hv. pose proof (kgrows_size _ _ Hg1). lia. }
    intros fb s2 (Hw2 & Hg2 & B1 & B2 & B3 & B4 & Hv2 & Hval2).
    eapply wp_mono; [apply Hop; [done| |done]|].
    { pose proof (kgrows_size _ _ Hg2). lia. }
    intros f s3 (Hw3 & Hg3 & C1 & C2 & C3 & C4 & Hv3 & Hval3).
    split; [done|]. split; [eauto using kgrows_trans|].
    split; [congruence|]. split; [congruence|]. split; [congruence|]. split; [congruence|]. split; [done|].
    intros env v Hv. rewrite (Hval3 env v Hv).
    assert (Hv' : kvaluation s2 env v) by (by eapply kvaluation_shrink).
    assert (Hv'' : kvaluation s1 env v) by (by eapply kvaluation_shrink).
    rewrite (Hval2 env v Hv'), (Hval1 env v Hv'').
    rewrite <- (take_drop m L) at 3. rewrite map_app, foldr_app.
    generalize (foldr g unit (map v (drop m L))) as B. intros B.
    generalize (map v (take m L)) as A. induction A as [|a A IHA]; cbn.
    + by rewrite Hid.
    + rewrite <- IHA. by rewrite Hassoc.
Qed.

Lemma kw_set_kc s c : kwf s -> cinv c -> (N.of_nat (length (cdata c)) <= 2 ^ 31)%N ->
  (exists t, cdata c = cdata (kc s) ++ t) -> kwf (set_kc s c) /\ kgrows s (set_kc s c).
Proof.
  intros Hw Hc Hr [t Ht].
  assert (Hg : kgrows s (set_kc s c)).
  { split; cbn; [|exists []; by rewrite app_nil_r..|by exists t]. intros n x Hx. by exists x. }
  split; [|done]. destruct Hw as [W1 W2 W3 [t0 W4] W5 W6 W7 W8 W9]. split; try done; cbn.
  - exists (t0 ++ t). by rewrite Ht, W4, app_assoc.
  - intros n x Hn Hx Hci. destruct (W5 n x Hn Hx Hci) as (Hch & f & Hf & ?). split; [done|].
    exists f. split; [|done]. by apply (kgrows_get _ _ _ _ Hg).
Qed.

Lemma cache_get_insert c t l c' : cinv c -> tt_wf t -> cache_insert t c = (l, c') ->
  (N.of_nat (length (cdata c')) <= 2 ^ 31)%N -> cache_get l c' = Some t.
Proof.
  intros Hc Ht E Hr. destruct (insert_spec c t l c' Hc Ht E Hr) as (_ & _ & Hd & Ho).
  unfold cache_get. rewrite Hd. cbn. rewrite Ho. unfold norm. destruct (get_bit t 0); [by rewrite not_not|done].
Qed.

Lemma insert_length_le c t l c' : cache_insert t c = (l, c') -> length (cdata c') <= S (length (cdata c)).
Proof.
  unfold cache_insert. destruct (assoc _ _); intros [_ <-]%pair_equal_spec; cbn; [lia|].
  rewrite app_length. cbn. lia.
Qed.

Lemma kcreate_node_wp s l f : kwf s -> Forall (fun c => c < ksize s) l -> tt_wf f -> nv f = length l ->
  (N.of_nat (S (length (cdata (kc s)))) <= 2 ^ 31)%N ->
  wp (kcreate_node l f) s (kbuilds s (fun v => tt_eval f (fun k => match l !! k with Some c => v c | None => false end))).
Proof.
  intros Hw Hl Hwf Hnv Hroom. unfold wp, kcreate_node. destruct l as [|a l].
  - rewrite decide_True by done. split; [done|]. split; [apply kgrows_refl|]. repeat split; try done.
    + pose proof (kw_size s Hw). unfold kget_constant. destruct (negb _); lia.
    + intros env v Hv. destruct (tt_is_const0 f) eqn:E; cbn.
      * rewrite (kv_0 _ _ _ Hv). symmetry. by apply is_const0_spec.
      * rewrite (kv_1 _ _ _ Hv). destruct (tt_eval f _) eqn:E2; [done|]. exfalso.
        assert (tt_is_const0 f = true); [|congruence]. apply is_const0_spec; [done|]. intros x. rewrite <- E2.
        apply eval_ext. cbn in Hnv. intros k Hk. lia.
  - destruct (cache_insert f (kc s)) as [lit c] eqn:E.
    pose proof (insert_length_le _ _ _ _ E) as Hlen.
    assert (Hr : (N.of_nat (length (cdata c)) <= 2 ^ 31)%N) by lia.
    destruct (insert_spec _ _ _ _ (kw_cinv s Hw) Hwf E Hr) as (Hc & Hpre & _).
    destruct (kw_set_kc s c Hw Hc Hr Hpre) as [Hw' Hg'].
    pose proof (kcreate_raw_wp (set_kc s c) (a :: l) lit f Hw' Hl) as H. cbn [set_kc kc] in H.
    specialize (H (cache_get_insert _ _ _ _ (kw_cinv s Hw) Hwf E Hr) Hwf Hnv).
    unfold wp in H. destruct (kcreate_raw (a :: l) lit (set_kc s c)) as [[r s']|]; [|done].
    by eapply kbuilds_trans.
Qed.

(* inputs and outputs *)
Lemma kcreate_ci_wf s m : kwf s -> (m = 1%N \/ m = 3%N) -> forall p,
  let s' := Klut (kn s ++ [KNode [] 2 0 m]) (kins s ++ [ksize s]) (kouts s) p (knpo s) (klat s) (kc s) in
  kwf s' /\ kgrows s s' /\ ksize s' = S (ksize s).
Proof.
  intros Hw Hm p s'. assert (Hs : ksize s' = S (ksize s)) by (unfold ksize, s'; cbn; rewrite app_length; cbn; lia).
  assert (Hg : kgrows s s').
  { split; cbn; [|by eexists|exists []; by rewrite app_nil_r..].
    intros n x Hx. exists x. split; [by apply lookup_app_l_Some|done]. }
  assert (Hlk : forall n x, kn s' !! n = Some x -> (n < ksize s /\ kn s !! n = Some x) \/ (n = ksize s /\ x = KNode [] 2 0 m)).
  { intros n x Hx. unfold s' in Hx; cbn in Hx. apply lookup_app_Some in Hx as [Hx|[Hge Hx]].
    - left. split; [by apply lookup_lt_Some in Hx|done].
    - apply list_lookup_singleton_Some in Hx as [Hz <-]. right. unfold ksize. split; [lia|done]. }
  split; [|done]. destruct Hw as [W1 W2 W3 W4 W5 W6 W7 W8 W9]. split; try done.
  - lia.
  - intros n x Hn Hx Hci. destruct (Hlk n x Hx) as [[_ Hx']|[-> ->]].
    + destruct (W5 n x Hn Hx' Hci) as (Hch & f & Hf & ?). split; [done|]. by exists f.
    + exfalso. unfold isci in Hci; cbn in Hci. destruct Hm as [-> | ->]; done.
  - cbn. intros k n Hk. apply lookup_app_Some in Hk as [Hk|[Hge Hk]].
    + destruct (W6 k n Hk) as (Hn & x & Hx & Hci). split; [done|]. exists x. split; [by apply lookup_app_l_Some|done].
    + apply list_lookup_singleton_Some in Hk as [_ <-]. split; [lia|]. eexists. split.
      * unfold ksize. rewrite lookup_app_r by lia. by rewrite Nat.sub_diag.
      * unfold isci; cbn. destruct Hm as [-> | ->]; done.
  - cbn. intros n x Hn Hx Hci. apply elem_of_app. destruct (Hlk n x Hx) as [[_ Hx']|[-> ->]].
    + left. by apply (W7 n x).
    + right. by apply elem_of_list_singleton.
  - cbn. apply NoDup_app. split; [done|]. split; [|apply NoDup_singleton].
    intros n Hn ->%elem_of_list_singleton. apply elem_of_list_lookup in Hn as [k Hk].
    destruct (W6 _ _ Hk) as (_ & x & Hx & _). apply lookup_lt_Some in Hx. unfold ksize in Hx. lia.
  - change (Forall (fun f => f < ksize s') (kouts s)). rewrite Hs. eapply Forall_impl; [exact W9|]. cbn. lia.
Qed.

Lemma kadd_out_wf s s1 f p lt : kwf s -> f < ksize s -> kincr f s = Some s1 ->
  let s' := Klut (kn s1) (kins s1) (kouts s1 ++ [f]) (knpi s1) p lt (kc s1) in
  kwf s' /\ kgrows s s' /\ ksize s' = ksize s /\ kins s' = kins s /\ kouts s' = kouts s ++ [f] /\ knpi s' = knpi s.
Proof.
  intros Hw Hf E s'. destruct (kincr_spec f s Hf) as (s1' & E' & Es & Ei & Eo & Ec & H1 & H2).
  rewrite E in E'. injection E' as <-. pose proof (kincr_cnt _ _ _ E) as (En & _).
  assert (Hg : kgrows s s').
  { split; cbn; [done|exists []; by rewrite Ei, app_nil_r|eexists; by rewrite Eo|exists []; by rewrite Ec, app_nil_r]. }
  assert (Hs : ksize s' = ksize s) by done.
  split; [|cbn; split; [done|]; split; [done|]; rewrite Ei, Eo; done].
  destruct Hw as [W1 W2 W3 W4 W5 W6 W7 W8 W9]. split; cbn; rewrite ?Ec, ?Ei, ?Eo; try done.
  - unfold ksize in *; cbn in *; lia.
  - intros n y Hn Hy Hci. destruct (H2 n y Hy) as (x & Hx & Hsn). pose proof (same_isci _ _ Hsn) as Hsi.
    destruct Hsn as (<- & <- & _). apply W5; congruence || done.
  - intros k n Hk. destruct (W6 k n Hk) as (Hn & x & Hx & Hci). split; [done|].
    destruct (H1 n x Hx) as (y & Hy & Hsn). exists y. split; [done|]. by rewrite <- (same_isci _ _ Hsn).
  - intros n y Hn Hy Hci. destruct (H2 n y Hy) as (x & Hx & Hsn). apply (W7 n x Hn Hx). by rewrite (same_isci _ _ Hsn).
  - change (Forall (fun g => g < ksize s1) (kouts s ++ [f])). rewrite Es. apply Forall_app. split; [done|]. by repeat constructor.
Qed.

(* postcondition of one creation call *)
Definition kpost (s : klut) (o : kop) (r : nat) (s' : klut) : Prop :=
  kwf s' /\ kgrows s s' /\ r < ksize s' /\
  (forall env v b, kvaluation s' env v -> kop_value o v = Some b -> v r = b).

Lemma kbuilds_post s o F r s' : (forall v, kop_value o v = Some (F v)) -> kbuilds s F r s' -> kpost s o r s'.
Proof.
  intros E (?&?&?&?&?&?&?&H). split; [done|]. split; [done|]. split; [done|].
  intros env v b Hv Hb. rewrite E in Hb. injection Hb as <-. by eapply H.
Qed.

Lemma foldr_forallb {A} (v : A -> bool) l : foldr andb true (map v l) = forallb v l.
Proof. induction l; cbn; congruence. Qed.
Lemma foldr_existsb {A} (v : A -> bool) l : foldr orb false (map v l) = existsb v l.
Proof. induction l; cbn; congruence. Qed.
Lemma foldr_xor_odd {A} (v : A -> bool) l :
  foldr xorb false (map v l) = Nat.odd (length (filter (fun f => v f = true) l)).
Proof.
  induction l as [|a l IH]; [done|]. cbn [map foldr]. rewrite filter_cons, IH.
  destruct (v a) eqn:E.
  - rewrite decide_True by done. cbn [length]. rewrite Nat.odd_succ, <- Nat.negb_odd. by destruct (Nat.odd _).
  - rewrite decide_False by done. by destruct (Nat.odd _).
Qed.

Lemma kstep_wp o s : kwf s -> Forall (fun c => c < ksize s) (koperands o) -> kargs_ok o ->
  kroom s ->
  wp (kstep o) s (kpost s o).
Proof.
  intros Hw Hl Ha Hr.
  destruct o; cbn [koperands kstep] in *;
    rewrite ?Forall_cons in Hl;
    try (destruct Hl as (?&?&?&?) || destruct Hl as (?&?&?) || destruct Hl as (?&?)).
  - destruct (kcreate_ci_wf s 1%N Hw ltac:(auto) (S (knpi s))) as (A & B & C). unfold wp, kcreate_pi.
    split; [done|]. split; [done|]. split; [lia|]. done.
  - destruct (kcreate_ci_wf s 3%N Hw ltac:(auto) (knpi s)) as (A & B & C). unfold wp, kcreate_ro.
    split; [done|]. split; [done|]. split; [lia|]. done.
  - apply wp_bnd. unfold wp, kcreate_po. destruct (kincr_spec f s H) as (s1 & E & _). rewrite E. cbn.
    destruct (kadd_out_wf s s1 f (S (knpo s1)) (klat s1) Hw H E) as (A & B & C & _).
    split; [done|]. split; [done|]. split; [lia|]. done.
  - apply wp_bnd. unfold wp, kcreate_ri. destruct (kincr_spec f s H) as (s1 & E & _). rewrite E. cbn.
    destruct (kadd_out_wf s s1 f (knpo s1) (klat s1 ++ [reset]) Hw H E) as (A & B & C & _).
    split; [done|]. split; [done|]. split; [lia|]. done.
  - eapply wp_mono; [by apply kcreate_not_wp|]. intros. by eapply kbuilds_post.
  - eapply wp_mono; [by apply kcreate_and_wp|]. intros. by eapply kbuilds_post.
  - eapply wp_mono; [by apply kcreate_or_wp|]. intros. by eapply kbuilds_post.
  - eapply wp_mono; [by apply kcreate_lt_wp|]. intros. by eapply kbuilds_post.
  - eapply wp_mono; [by apply kcreate_le_wp|]. intros. by eapply kbuilds_post.
  - eapply wp_mono; [by apply kcreate_xor_wp|]. intros. by eapply kbuilds_post.
  - eapply wp_mono; [by apply kcreate_maj_wp|]. intros. by eapply kbuilds_post.
  - eapply wp_mono; [by apply kcreate_ite_wp|]. intros. by eapply kbuilds_post.
  - eapply wp_mono; [by apply kcreate_xor3_wp|]. intros. by eapply kbuilds_post.
  - eapply wp_mono; [apply (ktree_reduce_wp andb true); try done|].
    + intros. apply andb_assoc.
    + apply andb_true_r.
    + apply kcreate_and_wp.
    + cbn; lia.
    + intros. by eapply kv_1.
    + lia.
    + intros r s'. apply kbuilds_post. intros v. cbn. by rewrite foldr_forallb.
  - eapply wp_mono; [apply (ktree_reduce_wp orb false); try done|].
    + intros. apply orb_assoc.
    + apply orb_false_r.
    + apply kcreate_or_wp.
    + cbn; lia.
    + intros. by eapply kv_0.
    + lia.
    + intros r s'. apply kbuilds_post. intros v. cbn. by rewrite foldr_existsb.
  - eapply wp_mono; [apply (ktree_reduce_wp xorb false); try done|].
    + by intros [].
    + intros. by rewrite xorb_assoc.
    + apply xorb_false_r.
    + apply kcreate_xor_wp.
    + cbn; lia.
    + intros. by eapply kv_0.
    + lia.
    + intros r s'. apply kbuilds_post. intros v. cbn. by rewrite foldr_xor_odd.
  - destruct Ha. eapply wp_mono; [apply kcreate_node_wp; [done|done|done|done|unfold kroom in Hr; lia]|]. intros. by eapply kbuilds_post.
Qed.

Lemma kreachable_wf s : kreachable s -> kwf s.
Proof.
  induction 1 as [|s o r s' Hs IH Hl Ha Hr E]; [apply klut_init_wf|].
  pose proof (kstep_wp o s IH Hl Ha Hr) as H. unfold wp in H. rewrite E in H. apply H.
Qed.

(* --- the two compute overloads --- *)
Lemma idx_cons n x : idx (S n) x = Nat.b2n (x 0) + 2 * idx n (fun k => x (S k)).
Proof.
  induction n as [|n IH]; [cbn; lia|].
  change (idx (S (S n)) x) with (idx (S n) x + Nat.b2n (x (S n)) * 2 ^ S n). rewrite IH.
  cbn [idx]. rewrite Nat.pow_succ_r'. lia.
Qed.
Lemma kpattern_idx i tts : forall j,
  kpattern i j tts = 2 ^ j * idx (length tts) (fun k => match tts !! k with Some t => get_bit t i | None => false end).
Proof.
  induction tts as [|t r IH]; intros j; [cbn; lia|]. cbn [kpattern length]. rewrite IH, idx_cons.
  rewrite Nat.pow_succ_r'.
  change (fun k => match (t :: r) !! S k with Some t => get_bit t i | None => false end)
    with (fun k => match r !! k with Some t => get_bit t i | None => false end).
  cbn [lookup list_lookup]. nia.
Qed.

Lemma kcompute_tt_spec s n x f tts t0 : kn s !! n = Some x -> cache_get (kfn x) (kc s) = Some f -> tt_wf f ->
  nv f = length (kch x) -> length tts = length (kch x) -> head tts = Some t0 ->
  exists t, kcompute_tt s n tts = Some t /\ tt_wf t /\ nv t = nv t0 /\
    forall i, i < 2 ^ nv t0 ->
      get_bit t i = tt_eval f (fun k => match tts !! k with Some t => get_bit t i | None => false end).
Proof.
  intros Hx Hf Hwf Hnv Hlen Hh. unfold kcompute_tt. rewrite Hx. cbn. rewrite Hh. cbn. rewrite decide_True by done.
  rewrite Hf. cbn. eexists. split; [done|]. split; [apply tab_wf|]. split; [done|].
  intros i Hi. rewrite get_tab by done. rewrite kpattern_idx, Nat.pow_0_r, Nat.mul_1_l.
  unfold tt_eval. by rewrite Hnv, Hlen.
Qed.

Lemma kindex_spec vs : length vs <= 32 -> forall acc k, (acc < 2 ^ N.of_nat k)%N -> k + length vs <= 32 ->
  fold_left (fun i b => N.lxor (u32 (2 * i)) (N.b2n b)) vs acc =
  (acc * 2 ^ N.of_nat (length vs) + N.of_nat (idx (length vs) (fun j => match rev vs !! j with Some b => b | None => false end)))%N.
Proof.
  intros _. induction vs as [|b vs IH]; intros acc k Hacc Hk.
  { cbn. lia. }
  cbn [fold_left length] in *.
  assert (E : N.lxor (u32 (2 * acc)) (N.b2n b) = (2 * acc + N.b2n b)%N).
  { unfold u32. rewrite N.mod_small.
    - destruct b; cbn [N.b2n]; [|by rewrite N.lxor_0_r, N.add_0_r]. destruct acc; done.
    - apply N.lt_le_trans with (2 * 2 ^ N.of_nat k)%N; [lia|].
      rewrite <- N.pow_succ_r'. apply N.pow_le_mono_r; lia. }
  rewrite E. rewrite (IH _ (S k)); [|rewrite Nat2N.inj_succ, N.pow_succ_r'; destruct b; cbn [N.b2n]; lia|lia].
  cbn [idx rev].
  rewrite (idx_ext (length vs) (fun j => match (rev vs ++ [b]) !! j with Some b => b | None => false end) (fun j => match rev vs !! j with Some b => b | None => false end)).
  2: { intros j Hj. by rewrite lookup_app_l by (rewrite rev_length; lia). }
  rewrite lookup_app_r by (rewrite rev_length; lia). rewrite rev_length, Nat.sub_diag. cbn [lookup list_lookup].
  rewrite Nat2N.inj_add, Nat2N.inj_mul, Nat2N.inj_pow, Nat2N.inj_succ, N.pow_succ_r'.
  destruct b; cbn [N.b2n Nat.b2n]; lia.
Qed.

Lemma kcompute_bool_spec s n x f vs : kn s !! n = Some x -> cache_get (kfn x) (kc s) = Some f -> tt_wf f ->
  nv f = length vs -> length vs <= 32 ->
  kcompute_bool s n vs = Some (tt_eval f (fun k => match rev vs !! k with Some b => b | None => false end)).
Proof.
  intros Hx Hf Hwf Hnv Hle. unfold kcompute_bool, knode_function. rewrite Hx. cbn. rewrite Hf. cbn. f_equal.
  unfold kindex. rewrite (kindex_spec vs Hle 0%N 0) by (cbn; lia). rewrite N.mul_0_l, N.add_0_l, Nat2N.id.
  unfold tt_eval. by rewrite Hnv.
Qed.

(* --- substitution --- *)
Lemma ksubstitute_lookup s old new s' : ksubstitute old new s = Some s' -> old < ksize s -> new < ksize s ->
  ksize s' = ksize s /\ kins s' = kins s /\ kc s' = kc s /\ kouts s' = kreplace old new (kouts s) /\
  (forall n x, kn s !! n = Some x -> exists y, kn s' !! n = Some y /\ kch y = kreplace old new (kch x) /\
      kfn y = kfn x /\ kvl y = kvl x) /\
  (forall n y, kn s' !! n = Some y -> exists x, kn s !! n = Some x /\ kch y = kreplace old new (kch x) /\
      kfn y = kfn x /\ kvl y = kvl x).
Proof.
  unfold ksubstitute. set (l1 := ksubst_nodes old new (kn s)). intros H Ho Hn.
  destruct (l1 !! new) as [x|] eqn:Ex; [|done]. cbn in H.
  set (x' := KNode (kch x) _ _ _) in H. destruct (<[new:=x']> l1 !! old) as [y|] eqn:Ey; [|done]. cbn in H.
  injection H as <-. unfold ksize; cbn. rewrite !insert_length.
  assert (Hl1 : length l1 = length (kn s)) by (unfold l1, ksubst_nodes; by rewrite map_length).
  assert (Hlk : forall n, l1 !! n = (fun x => KNode (kreplace old new (kch x)) (kfn x) (kfo x) (kvl x)) <$> kn s !! n).
  { intros n. unfold l1, ksubst_nodes. apply list_lookup_fmap. }
  split; [done|]. split; [done|]. split; [done|]. split; [done|].
  set (y' := KNode (kch y) _ _ _).
  assert (G : forall n z, l1 !! n = Some z -> exists z', <[old:=y']> (<[new:=x']> l1) !! n = Some z' /\
     kch z' = kch z /\ kfn z' = kfn z /\ kvl z' = kvl z).
  { intros n z Hz. assert (G1 : exists z', <[new:=x']> l1 !! n = Some z' /\
        kch z' = kch z /\ kfn z' = kfn z /\ kvl z' = kvl z).
    { destruct (decide (n = new)) as [->|Hne].
      - exists x'. rewrite list_lookup_insert by (by apply lookup_lt_Some in Hz). rewrite Hz in Ex. by injection Ex as ->.
      - exists z. by rewrite list_lookup_insert_ne by done. }
    destruct G1 as (z1 & Hz1 & A1 & A2 & A3). destruct (decide (n = old)) as [->|Hne].
    - exists y'. rewrite list_lookup_insert by (by apply lookup_lt_Some in Hz1). split; [done|].
      rewrite Hz1 in Ey. by injection Ey as <-.
    - exists z1. by rewrite list_lookup_insert_ne by done. }
  split.
  - intros n z Hz. destruct (G n (KNode (kreplace old new (kch z)) (kfn z) (kfo z) (kvl z))) as (z' & Hz' & A); [by rewrite Hlk, Hz|].
    exists z'. done.
  - intros n z' Hz'. assert (Hn' : n < length (kn s)) by (apply lookup_lt_Some in Hz'; rewrite !insert_length in Hz'; lia).
    destruct (lookup_lt_is_Some_2 _ _ Hn') as [z Hz]. exists z. split; [done|].
    destruct (G n (KNode (kreplace old new (kch z)) (kfn z) (kfo z) (kvl z))) as (z2 & Hz2 & A); [by rewrite Hlk, Hz|].
    rewrite Hz' in Hz2. by injection Hz2 as <-.
Qed.

Lemma ksubstitute_some s old new : old < ksize s -> new < ksize s -> exists s', ksubstitute old new s = Some s'.
Proof.
  intros Ho Hn. unfold ksubstitute.
  destruct (ksubst_nodes old new (kn s) !! new) as [x|] eqn:Ex.
  2: { apply lookup_ge_None in Ex. unfold ksubst_nodes in Ex. rewrite map_length in Ex. unfold ksize in *. lia. }
  cbn. match goal with |- context [<[new := ?z]> ?l !! old] => destruct (<[new := z]> l !! old) as [y|] eqn:Ey end.
  2: { apply lookup_ge_None in Ey. rewrite insert_length in Ey. unfold ksubst_nodes in Ey. rewrite map_length in Ey. unfold ksize in *. lia. }
  cbn. by eexists.
Qed.

Lemma ksubstitute_valuation s old new s' env v : kwf s -> old < ksize s -> new < ksize s ->
  ksubstitute old new s = Some s' -> kvaluation s env v -> v old = v new -> kvaluation s' env v.
Proof.
  intros Hw Ho Hn E [A0 A1 Ai Ag] Heq.
  destruct (ksubstitute_lookup s old new s' E Ho Hn) as (Es & Ei & Ec & Eo & H1 & H2).
  split; [done|done|by rewrite Ei|]. intros n y f Hn1 Hy Hci Hf. destruct (H2 n y Hy) as (x & Hx & B1 & B2 & B3).
  rewrite (Ag n x f); [|done|done| |by rewrite <- B2, <- Ec].
  - apply eval_ext. intros k _. rewrite B1. unfold kreplace.
    change (map ?g (kch x) !! k) with ((g <$> kch x) !! k). rewrite list_lookup_fmap.
    destruct (kch x !! k) as [c|]; [|done]. cbn. by destruct (decide (c = old)) as [->|].
  - rewrite (kis_ci_isci _ _ _ Hx). rewrite (kis_ci_isci _ _ _ Hy) in Hci. unfold isci in *. by rewrite <- B3.
Qed.

Lemma ksubstitute_wf s old new s' : kwf s -> old < ksize s -> new < old ->
  ksubstitute old new s = Some s' -> kwf s'.
Proof.
  intros Hw Ho Hn E.
  destruct (ksubstitute_lookup s old new s' E Ho ltac:(lia)) as (Es & Ei & Ec & Eo & H1 & H2).
  destruct Hw as [W1 W2 W3 W4 W5 W6 W7 W8 W9]. split; rewrite ?Ec, ?Ei; try done.
  - lia.
  - intros n y Hn1 Hy Hci. destruct (H2 n y Hy) as (x & Hx & B1 & B2 & B3).
    destruct (W5 n x Hn1 Hx) as (Hch & f & Hf & Hwf & Hnv); [unfold isci in *; by rewrite <- B3|].
    rewrite B1, B2. split.
    + unfold kreplace. apply Forall_fmap. eapply Forall_impl; [exact Hch|]. cbn. intros c Hc.
      destruct (decide (c = old)); lia.
    + exists f. split; [done|]. split; [done|]. unfold kreplace. by rewrite map_length.
  - intros k n Hk. destruct (W6 k n Hk) as (Hn1 & x & Hx & Hci). split; [done|].
    destruct (H1 n x Hx) as (y & Hy & B1 & B2 & B3). exists y. split; [done|]. unfold isci in *. by rewrite B3.
  - intros n y Hn1 Hy Hci. destruct (H2 n y Hy) as (x & Hx & B1 & B2 & B3). apply (W7 n x Hn1 Hx).
    unfold isci in *. by rewrite <- B3.
  - rewrite Eo, Es. unfold kreplace. apply Forall_fmap. eapply Forall_impl; [exact W9|]. cbn. intros c Hc.
    destruct (decide (c = old)); lia.
Qed.

Lemma ksubstitute_sound s old new : kwf s -> old < ksize s -> new < old ->
  (forall env v, kvaluation s env v -> v old = v new) ->
  exists s', ksubstitute old new s = Some s' /\ old ∉ kouts s' /\
    (forall n x, kn s' !! n = Some x -> old ∉ kch x) /\
    (forall env v v', kvaluation s env v -> kvaluation s' env v' ->
       (forall n, n < ksize s -> v' n = v n) /\ map v' (kouts s') = map v (kouts s)).
Proof.
  intros Hw Ho Hn Heq. destruct (ksubstitute_some s old new Ho ltac:(lia)) as [s' E].
  destruct (ksubstitute_lookup s old new s' E Ho ltac:(lia)) as (Es & Ei & Ec & Eo & H1 & H2).
  pose proof (ksubstitute_wf s old new s' Hw Ho Hn E) as Hw'.
  assert (Hnot : forall l, old ∉ kreplace old new l).
  { intros l Hin. unfold kreplace in Hin. apply elem_of_list_fmap in Hin as (c & Hc & _).
    destruct (decide (c = old)); [lia|congruence]. }
  exists s'. split; [done|]. split; [by rewrite Eo|]. split.
  { intros n x Hx. destruct (H2 n x Hx) as (y & _ & -> & _). apply Hnot. }
  intros env v v' Hv Hv'.
  assert (G : forall n, n < ksize s -> v' n = v n).
  { intros n Hlt. apply (kvaluation_unique s' env); [done|done| |by rewrite Es].
    eapply ksubstitute_valuation; [exact Hw|exact Ho| |exact E|done|by eapply Heq]. lia. }
  split; [done|]. rewrite Eo. unfold kreplace. rewrite map_map. apply map_ext_in. intros c Hc.
  pose proof (kw_out s Hw) as Hout. rewrite Forall_forall in Hout.
  assert (Hcs : c < ksize s) by (apply Hout; by apply elem_of_list_In).
  destruct (decide (c = old)) as [->|]; [|by apply G]. rewrite G by lia. symmetry. by eapply Heq.
Qed.

(* --- statements used by PropKlut --- *)
Lemma klut_constructors s o : kreachable s -> kroom s ->
  Forall (fun c => c < ksize s) (koperands o) -> kargs_ok o ->
  exists r s', kstep o s = Some (r, s') /\ r < ksize s' /\
  forall env v v', kvaluation s env v -> kvaluation s' env v' ->
    (forall n, n < ksize s -> v' n = v n) /\
    (forall b, kop_value o v = Some b -> v' r = b).
Proof.
  intros Hr Hroom Hl Ha. pose proof (kreachable_wf s Hr) as Hw.
  destruct (wp_elim _ _ _ (kstep_wp o s Hw Hl Ha Hroom)) as (r & s' & E & Hw' & Hg & Hlt & Hval).
  exists r, s'. split; [done|]. split; [done|]. intros env v v' Hv Hv'.
  assert (G : forall n, n < ksize s -> v' n = v n).
  { intros n Hn. apply (kvaluation_unique s env); try done. by eapply kvaluation_shrink. }
  split; [done|]. intros b Hb. apply (Hval env v' b Hv'). rewrite <- Hb.
  assert (Hl' : Forall (fun c => v' c = v c) (koperands o)) by (eapply Forall_impl; [exact Hl|]; cbn; auto).
  destruct o; cbn [koperands kop_value] in *; try done;
    rewrite ?Forall_cons in Hl'; repeat match goal with H : _ /\ _ |- _ => destruct H end; try congruence.
  - by rewrite H, H0, H1.
  - f_equal. clear -Hl'. induction Hl' as [|a l Ha _ IH]; [done|]. cbn. rewrite Ha.
    by rewrite IH.
  - f_equal. clear -Hl'. induction Hl' as [|a l Ha _ IH]; [done|]. cbn. rewrite Ha.
    by rewrite IH.
  - f_equal. f_equal. f_equal. clear -Hl'. induction Hl' as [|a l Ha _ IH]; [done|].
    by rewrite !filter_cons, Ha, IH.
  - f_equal. apply eval_ext. intros k _. destruct (l !! k) as [c|] eqn:Hk; [|done].
    rewrite Forall_forall in Hl'. apply Hl'. by eapply elem_of_list_lookup_2.
Qed.

Lemma klut_meaning s env : kreachable s ->
  exists v, kvaluation s env v /\ forall v', kvaluation s env v' -> forall n, n < ksize s -> v' n = v n.
Proof.
  intros Hr. pose proof (kreachable_wf s Hr) as Hw. destruct (kvaluation_exists s env Hw) as [v Hv].
  exists v. split; [done|]. intros v' Hv'. by apply (kvaluation_unique s env).
Qed.

Lemma klut_gate s n x f : kreachable s -> 1 < n -> kn s !! n = Some x -> kis_ci s n = Some false ->
  knode_function s n = Some f -> cache_get (kfn x) (kc s) = Some f /\ tt_wf f /\ nv f = length (kch x).
Proof.
  intros Hr Hn Hx Hci Hf. unfold knode_function in Hf. rewrite Hx in Hf. cbn in Hf.
  destruct (kw_gate s (kreachable_wf s Hr) n x Hn Hx) as (_ & g & Hg & Hwf & Hnv).
  { rewrite (kis_ci_isci _ _ _ Hx) in Hci. congruence. }
  assert (g = f) as -> by congruence. done.
Qed.
Lemma klut_compute_tt s n x f tts t0 : kreachable s ->
  1 < n -> kn s !! n = Some x -> kis_ci s n = Some false -> knode_function s n = Some f ->
  length tts = length (kch x) -> head tts = Some t0 ->
  exists t, kcompute_tt s n tts = Some t /\ nv t = nv t0 /\
    forall i, i < 2 ^ nv t0 ->
      get_bit t i = tt_eval f (fun k => match tts !! k with Some t => get_bit t i | None => false end).
Proof.
  intros Hr Hn Hx Hci Hf Hl Hh. destruct (klut_gate s n x f) as (Hg & Hwf & Hnv); try done.
  destruct (kcompute_tt_spec s n x f tts t0) as (t & ? & _ & ? & ?); try done. by exists t.
Qed.
Lemma klut_compute_bool s n x f vs : kreachable s ->
  1 < n -> kn s !! n = Some x -> kis_ci s n = Some false -> knode_function s n = Some f ->
  length vs = length (kch x) -> length vs <= 32 ->
  kcompute_bool s n vs = Some (tt_eval f (fun k => match rev vs !! k with Some b => b | None => false end)).
Proof.
  intros Hr Hn Hx Hci Hf Hl Hle. destruct (klut_gate s n x f) as (Hg & Hwf & Hnv); try done.
  apply (kcompute_bool_spec s n x f); congruence || done.
Qed.
