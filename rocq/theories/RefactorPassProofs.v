(* Proofs about the refactoring pass. *)
From Verif Require Import Base Aig AigSem AigHash AigProofs Topo Clean NetProofs CleanProofs Tt TtProofs Factor FactorCircuit Subst SubstProofs
  RefDeref Refactor RefactorProofs RefactorPass.

(* ---- building on top of any network ---- *)
(* the gates from index n0 on, evaluated in order *)
Definition vstep (s : aig) (v : nat -> bool) (i : nat) : nat -> bool :=
  match ks s !! i with Some k => setv v i (sval v k.1 && sval v k.2) | None => v end.
Definition vx (n0 : nat) (s : aig) (v : nat -> bool) : nat -> bool := foldl (vstep s) v (seq n0 (size s - n0)).

Lemma vfold_below s l v k : (forall i, i ∈ l -> k < i) -> foldl (vstep s) v l k = v k.
Proof.
  revert v. induction l as [|i l IH]; intros v Hl; [done|]. cbn [foldl]. rewrite IH by (intros j Hj; apply Hl; by right).
  unfold vstep. destruct (ks s !! i); [|done]. apply setv_ne. specialize (Hl i ltac:(left)). lia.
Qed.
Lemma vx_old n0 s v k : k < n0 -> vx n0 s v k = v k.
Proof. intros Hk. apply vfold_below. intros i Hi%elem_of_seq. lia. Qed.
Lemma vfold_ext s s' l v : (forall i, i ∈ l -> ks s' !! i = ks s !! i) -> foldl (vstep s') v l = foldl (vstep s) v l.
Proof.
  revert v. induction l as [|i l IH]; intros v Hl; [done|]. cbn [foldl]. unfold vstep at 2 4. rewrite (Hl i) by left.
  apply IH. intros j Hj. apply Hl. by right.
Qed.
Lemma vx_ext n0 s s' v : n0 <= size s -> ext s s' -> vx n0 s' v = foldl (vstep s') (vx n0 s v) (seq (size s) (size s' - size s)).
Proof.
  intros Hn He. destruct (ext_ks _ _ He) as [t Et]. unfold vx.
  assert (Hle : size s <= size s') by (unfold size; rewrite Et, app_length; lia).
  replace (size s' - n0) with ((size s - n0) + (size s' - size s)) by lia. rewrite seq_app, foldl_app.
  replace (n0 + (size s - n0)) with (size s) by lia. f_equal. apply vfold_ext.
  intros i Hi%elem_of_seq. rewrite Et. apply lookup_app_l. unfold size in *. lia.
Qed.
Lemma vx_ext_old n0 s s' v k : n0 <= size s -> ext s s' -> k < size s -> vx n0 s' v k = vx n0 s v k.
Proof. intros Hn He Hk. rewrite (vx_ext n0 s s' v Hn He). apply vfold_below. intros i Hi%elem_of_seq. lia. Qed.

(* gates from n0 on have smaller fanins *)
Record grown (s0 s : aig) : Prop := {
  gr_ext : ext s0 s;
  gr_new : forall n a b, size s0 <= n -> ks s !! n = Some (a, b) -> a <> b /\ sidx a < n /\ sidx b < n;
  gr_fo : length (fo s) = size s
}.
Lemma ext_size s s' : ext s s' -> size s <= size s'.
Proof. intros He. destruct (ext_ks _ _ He) as [t Et]. unfold size. rewrite Et, app_length. lia. Qed.
Lemma grown_refl s : length (fo s) = size s -> grown s s.
Proof. intros Hf. split; [apply ext_refl| |done]. intros n a b Hn E%lookup_lt_Some. unfold size in *. lia. Qed.

Lemma vx_gate s0 s v n a b : grown s0 s -> size s0 <= n -> ks s !! n = Some (a, b) ->
  vx (size s0) s v n = sval (vx (size s0) s v) a && sval (vx (size s0) s v) b.
Proof.
  intros G Hn E. pose proof (lookup_lt_Some _ _ _ E) as Hlt. destruct (gr_new _ _ G n a b Hn E) as (_ & Ha & Hb).
  unfold vx. replace (size s - size s0) with ((n - size s0) + S (size s - S n)) by (unfold size in *; lia).
  rewrite seq_app, foldl_app. replace (size s0 + (n - size s0)) with n by lia. cbn [seq foldl].
  set (w := foldl (vstep s) v (seq (size s0) (n - size s0))).
  assert (H : forall k, k <= n -> foldl (vstep s) (vstep s w n) (seq (S n) (size s - S n)) k = vstep s w n k).
  { intros k Hk. apply vfold_below. intros i Hi%elem_of_seq. lia. }
  unfold sval. rewrite !H by lia. unfold vstep. rewrite E. cbn [fst snd]. by rewrite setv_eq, !setv_ne by lia.
Qed.

Lemma vx_valuation s0 s env v : grown s0 s -> shape s0 -> valuation s0 env v -> valuation s env (vx (size s0) s v).
Proof.
  intros G S V. pose proof (gr_ext _ _ G) as He. pose proof (lookup_lt_Some _ _ _ (sh_const _ S)) as H0. destruct (ext_ks _ _ He) as [t Et]. split.
  - rewrite vx_old by exact H0. apply (val_const _ _ _ V).
  - intros k n Hk. rewrite (ext_ins _ _ He) in Hk. destruct (sh_in _ S k n Hk) as [_ Hn%lookup_lt_Some].
    rewrite vx_old by exact Hn. by apply (val_input _ _ _ V).
  - intros n a b E Hn Hab. destruct (decide (size s0 <= n)) as [Hge|Hlt]; [by apply vx_gate|].
    rewrite Et, lookup_app_l in E by (unfold size in *; lia). rewrite vx_old by lia.
    rewrite (val_gate _ _ _ V n a b E Hn Hab). unfold sval.
    rewrite !vx_old; [done| |]; apply (sh_gate _ S n); exists a, b; auto.
Qed.
(* ... and every valuation is of this form *)
Lemma vx_unique s0 s env w : grown s0 s -> valuation s env w -> forall k, k < size s -> vx (size s0) s w k = w k.
Proof.
  intros G V k. induction (lt_wf k) as [k _ IH]. intros Hk. destruct (decide (size s0 <= k)) as [Hge|Hlt]; [|apply vx_old; lia].
  destruct (lookup_lt_is_Some_2 (ks s) k Hk) as [[a b] E]. destruct (gr_new _ _ G k a b Hge E) as (Hab & Ha & Hb).
  rewrite (vx_gate s0 s w k a b G Hge E). destruct (decide (k = 0)) as [->|Hk0]; [lia|].
  rewrite (val_gate _ _ _ V k a b E Hk0 Hab). unfold sval. by rewrite !IH by lia.
Qed.

Lemma find_some_key s k r : hash_find k s = Some r -> r <> 0 -> ks s !! r = Some k.
Proof. apply hash_find_key. Qed.

(* create_and, in a network in any condition *)
Lemma and_grown s0 s a b : shape s0 -> grown s0 s -> valid s a -> valid s b ->
  may True (create_and a b) s (fun f s' => grown s0 s' /\ ext s s' /\ valid s' f /\
    forall env v, valuation s0 env v -> sval (vx (size s0) s' v) f = sval (vx (size s0) s v) a && sval (vx (size s0) s v) b).
Proof.
  intros S0 G Ha Hb. unfold may, create_and.
  destruct (valid_order s a b Ha Hb) as [Hc Hd].
  assert (Ho : forall v, sval v a && sval v b = sval v (order a b).1 && sval v (order a b).2) by (intros v; by rewrite order_val).
  destruct (order a b) as [c d]. cbn [fst snd] in *.
  assert (Hz : 0 < size s0) by (apply (lookup_lt_Some _ _ _ (sh_const _ S0))).
  pose proof (ext_size _ _ (gr_ext _ _ G)) as Hs.
  assert (H0 : forall env v, valuation s0 env v -> vx (size s0) s v 0 = false).
  { intros env v V. rewrite vx_old by done. apply (val_const _ _ _ V). }
  assert (Hcst : forall b, valid s (get_constant b)) by (intros ?; unfold valid; cbn; lia).
  destruct (decide (sidx c = sidx d)) as [E|Ne].
  { split; [done|]. split; [apply ext_refl|]. split; [by case_decide|]. intros env v V. rewrite Ho. specialize (H0 env v V).
    unfold sval. rewrite E. case_decide as Hcc; cbn; rewrite ?E.
    - rewrite Hcc. by destruct (xorb _ _).
    - rewrite H0. destruct (vx (size s0) s v (sidx d)), (scompl c), (scompl d); done. }
  destruct (decide (sidx c = 0)) as [E|Nz].
  { split; [done|]. split; [apply ext_refl|]. split; [by destruct (scompl c)|]. intros env v V. rewrite Ho. specialize (H0 env v V).
    unfold sval at 2. rewrite E, H0. destruct (scompl c); cbn; [done|]. unfold sval; cbn. by rewrite H0. }
  destruct (hash_find (c, d) s) as [found|] eqn:Ef; [|done]. cbn [mbind option_bind].
  destruct (decide (found = 0)) as [_|Hf].
  - destruct (new_and c d s) as [[f s']|] eqn:En; [|done]. unfold new_and in En.
    apply bind_Some in En as (s1 & [H1 _]%hash_insert_frame & En).
    apply bind_Some in En as (pa & _ & En). apply bind_Some in En as (pb & _ & En).
    apply bind_Some in En as (s3 & H3%incr_fanout_frame & En). apply bind_Some in En as (s4 & H4%incr_fanout_frame & [= <- <-]).
    destruct H1 as [K1 I1 O1 P1 Q1 L1 F1 _], H3 as [K3 I3 O3 P3 Q3 L3 F3 _], H4 as [K4 I4 O4 P4 Q4 L4 F4 _]. cbn in *.
    assert (Ek : ks s4 = ks s ++ [(c, d)]) by congruence.
    assert (He : ext s s4) by (split; try congruence; by eexists).
    assert (Hsz : size s4 = S (size s)) by (unfold size; rewrite Ek, app_length; cbn; lia).
    assert (G4 : grown s0 s4).
    { split.
      - eapply ext_trans; [apply G|done].
      - intros n x y Hn E. rewrite Ek in E. apply lookup_app_Some in E as [E|[Hl E]]; [by apply (gr_new _ _ G n x y Hn E)|].
        destruct (n - length (ks s)) eqn:En; [|done]. cbn in E. injection E as <- <-. unfold valid, size in *. split; [congruence|lia].
      - rewrite Hsz. assert (length (fo s4) = length (fo s) + 1) as ->; [|rewrite (gr_fo _ _ G); lia].
        rewrite F4, F3, F1. unfold push_node. cbn. rewrite app_length. done. }
    split; [done|]. split; [done|]. split; [unfold valid; cbn; lia|]. intros env v V. rewrite Ho.
    assert (E : ks s4 !! size s = Some (c, d)) by (rewrite Ek; unfold size; by rewrite lookup_app_r, Nat.sub_diag by lia).
    unfold sval at 1. cbn [sidx scompl]. rewrite xorb_false_r, (vx_gate s0 s4 v _ _ _ G4 Hs E). unfold sval.
    by rewrite !(vx_ext_old (size s0) s s4) by done.
  - pose proof (find_some_key _ _ _ Ef Hf) as E. split; [done|]. split; [apply ext_refl|].
    split; [unfold valid; cbn; by eapply lookup_lt_Some|]. intros env v V. rewrite Ho.
    pose proof (vx_valuation s0 s env v G S0 V) as V'. unfold sval at 1. cbn [sidx scompl]. rewrite xorb_false_r.
    apply (val_gate _ _ _ V'); [done|done|congruence].
Qed.

Lemma grown_valuation s s' env w : grown s s' -> valuation s' env w -> valuation s env w.
Proof.
  intros G W. pose proof (gr_ext _ _ G) as He. destruct (ext_ks _ _ He) as [k Ek]. split.
  - apply (val_const _ _ _ W).
  - intros i n Hi. apply (val_input _ _ _ W). by rewrite (ext_ins _ _ He).
  - intros n a b En. apply (val_gate _ _ _ W). rewrite Ek. by apply lookup_app_l_Some.
Qed.

(* valuations of s0 as environments *)
Definition vals (s0 : aig) : Type := {v : nat -> bool | exists env, valuation s0 env v}.
Definition gval (s0 s : aig) (e : vals s0) (f : signal) : bool := sval (vx (size s0) s (proj1_sig e)) f.
Definition ggood (s0 s : aig) : Prop := shape s0 /\ grown s0 s.
Lemma gval_const s0 s c : ggood s0 s -> valid s (get_constant c) /\ forall e, gval s0 s e (get_constant c) = c.
Proof.
  intros [S0 G]. pose proof (lookup_lt_Some _ _ _ (sh_const _ S0)) as Hz. pose proof (ext_size _ _ (gr_ext _ _ G)) as Hs. unfold size in *.
  split; [unfold valid, size; cbn; lia|]. intros [v [env V]]. unfold gval, sval. cbn [proj1_sig get_constant sidx scompl].
  rewrite vx_old by done. rewrite (val_const _ _ _ V). by destruct c.
Qed.
Lemma gval_ext s0 s s' e f : ggood s0 s -> ggood s0 s' -> ext s s' -> valid s f -> gval s0 s' e f = gval s0 s e f.
Proof.
  intros [S0 G] _ He Hv. unfold gval, sval. rewrite (vx_ext_old (size s0) s s'); [done| |done|exact Hv]. apply ext_size, G.
Qed.
Lemma gval_and s0 s a b : ggood s0 s -> valid s a -> valid s b ->
  may True (create_and a b) s (fun f s' => ggood s0 s' /\ ext s s' /\ valid s' f /\ forall e, gval s0 s' e f = gval s0 s e a && gval s0 s e b).
Proof.
  intros [S0 G] Ha Hb. eapply may_mono; [by apply (and_grown s0)|]. cbn beta. intros f s' (? & ? & ? & Hf).
  split; [done|]. split; [done|]. split; [done|]. intros [v [env V]]. by apply (Hf env).
Qed.
Definition grown_builder (s0 : aig) : builder :=
  {| b_env := vals s0; b_fail := True; b_good := ggood s0; b_val := gval s0; b_not := fun s e f => sval_snot _ f;
     b_const := gval_const s0; b_ext := gval_ext s0; b_and := gval_and s0 |}.

(* the factoring in any network: the new signal has the value of the table *)
Lemma factoring_grown s t leaves f s' : shape s -> tt_wf t -> nv t <= length leaves -> Forall (valid s) leaves ->
  sop_factoring t leaves s = Some (f, s') ->
  grown s s' /\ valid s' f /\ (forall env v, valuation s env v -> valuation s' env (vx (size s) s' v)) /\
  forall env w, valuation s' env w -> sval w f = tt_eval t (fun i => match leaves !! i with Some g => sval w g | None => false end).
Proof.
  intros S Ht Hl Hv E. assert (Hn : nv t <= 31).
  { unfold sop_factoring in E. destruct (decide (nv t <= 31)); [done|discriminate E]. }
  assert (G0 : ggood s s) by (split; [done|]; apply grown_refl, S).
  pose proof (sop_factoring_good (grown_builder s) s t leaves G0 Ht Hn Hl Hv) as H.
  unfold may in H. rewrite E in H. destruct H as ([_ G] & He & Hvf & Hval). cbn [b_good b_val grown_builder b_env] in *.
  split; [done|]. split; [done|]. split; [intros env v V; by apply vx_valuation|].
  intros env w W. pose proof (grown_valuation s s' env w G W) as V.
  specialize (Hval (exist _ w (ex_intro _ env V))). unfold gval in Hval. cbn [proj1_sig] in Hval.
  assert (E1 : sval (vx (size s) s' w) f = sval w f).
  { unfold sval. by rewrite (vx_unique s s' env w G W _ Hvf). }
  rewrite <- E1, Hval. apply eval_ext. intros i Hi. unfold cval. destruct (leaves !! i) as [g|] eqn:Eg; [|done].
  cbn [b_val grown_builder]. unfold gval, sval. cbn [proj1_sig]. pose proof (Forall_lookup_1 _ _ _ _ Hv Eg) as Hg.
  unfold vx. by rewrite Nat.sub_diag.
Qed.

(* ---- the cut and its table, in any network ---- *)
Lemma ofold_inv {A B} (f : A -> B -> option A) (P : A -> Prop) l a b :
  (forall a x b, x ∈ l -> P a -> f a x = Some b -> P b) -> P a -> ofold f a l = Some b -> P b.
Proof.
  revert a. induction l as [|x l IH]; cbn [ofold]; intros a Hf Ha; [by intros [= <-]|].
  intros (a1 & E & H)%bind_Some. eapply IH; [|eapply Hf; [left|exact Ha|exact E]|exact H]. intros. eapply Hf; [by right|done|done].
Qed.
Lemma leaf_table_value leaves v n t : leaf_table leaves n = Some t -> table_of leaves v n t.
Proof.
  unfold leaf_table. case_decide as Hn; [|done]. intros [= <-]. split; [apply tab_wf|]. split; [done|].
  rewrite eval_tab. destruct (elem_of_list_lookup_1 _ _ Hn) as [k Hk].
  assert (Hv : forall k, leaves !! k = Some n -> at_leaves leaves v k = v n) by (intros j Hj; unfold at_leaves; by rewrite Hj).
  destruct (v n) eqn:E.
  - apply existsb_exists. exists k. split; [apply in_seq; apply lookup_lt_Some in Hk; lia|].
    rewrite bool_decide_eq_true_2 by done. cbn [andb]. rewrite testbit_idx, decide_True; [by apply Hv|]. by apply lookup_lt_Some in Hk.
  - apply not_true_is_false. intros H. apply existsb_exists in H as (j & _ & H). apply andb_true_iff in H as [H1 H2].
    apply bool_decide_eq_true in H1. rewrite testbit_idx in H2. case_decide; [|done]. rewrite Hv in H2; done.
Qed.
(* all inputs are primary inputs *)
Definition comb (s : aig) : Prop := length (ins s) = npi s /\ length (outs s) = npo s.
Lemma ci_pi s n a : shape s -> comb s -> ks s !! n = Some (a, a) -> n = 0 \/ is_pi s n = Some true.
Proof.
  intros S [Hc _] E. destruct (sh_ci _ S n a E) as [?|Hn]; [by left|right]. apply elem_of_list_lookup in Hn as [k Hk].
  destruct (sh_in _ S k n Hk) as [_ E']. unfold is_pi. rewrite E'. cbn [mbind option_bind fst snd]. f_equal.
  rewrite !bool_decide_eq_true_2; [done| |done]. apply lookup_lt_Some in Hk.
  replace (sdata (sig_of_data k)) with k; [lia|]. symmetry. apply sdata_sig_of_data.
Qed.
Lemma cone_step_value s leaves env v m n m' : shape s -> comb s -> valuation s env v -> (forall x t, m x = Some t -> table_of leaves v x t) ->
  cone_step s m n = Some m' -> forall x t, m' x = Some t -> table_of leaves v x t.
Proof.
  intros S C V Hm. unfold cone_step. intros (pi & Ep & H)%bind_Some. destruct pi; [by injection H as <-|].
  apply bind_Some in H as ([a b] & E & H). apply bind_Some in H as (ta & Ha & H). apply bind_Some in H as (tb & Hb & H).
  cbn [fst snd] in *. case_decide as Hnv; [|done]. injection H as <-. unfold insert_new.
  destruct (m n) as [t0|] eqn:En; [done|]. intros x t Hx.
  destruct (decide (x = n)) as [->|Hne]; [|rewrite setv_ne in Hx by done; by apply Hm]. rewrite setv_eq in Hx. injection Hx as <-.
  assert (Hn : n <> 0).
  { intros ->. rewrite (sh_const _ S) in E. injection E as <- <-. cbn [sidx] in Ha. congruence. }
  assert (Hab : a <> b).
  { intros ->. destruct (ci_pi s n b S C E) as [?|?]; congruence. }
  destruct (Hm _ _ Ha) as (Wa & Na & Ea). destruct (Hm _ _ Hb) as (Wb & Nb & Eb).
  assert (Wa' := not_if_wf ta (scompl a) Wa). assert (Wb' := not_if_wf tb (scompl b) Wb).
  assert (nv (tt_not_if ta (scompl a)) = nv (tt_not_if tb (scompl b))) by (rewrite !nv_not_if; congruence).
  split; [by apply and_wf|]. split; [cbn; by rewrite nv_not_if|].
  rewrite eval_and, !eval_not_if, Ea, Eb by done. rewrite (val_gate _ _ _ V n a b E Hn Hab). unfold sval. by rewrite ?(xorb_comm (v _)).
Qed.
Lemma cone_value s leaves cone root t : shape s -> comb s -> compute_cone_tt s leaves cone root = Some t ->
  forall env v, valuation s env v -> table_of leaves v root t.
Proof.
  intros S C. unfold compute_cone_tt. case_decide; [|done]. intros (m & E & Hr)%bind_Some env v V.
  revert root t Hr. change (forall x t, m x = Some t -> table_of leaves v x t).
  eapply (ofold_inv (cone_step s) (fun m => forall x t, m x = Some t -> table_of leaves v x t)); [| |exact E].
  - intros m1 n m2 _ H1 H2. by eapply cone_step_value.
  - intros x t Hx. by apply leaf_table_value.
Qed.

Lemma cone_table_wf s leaves cone root t : compute_cone_tt s leaves cone root = Some t -> tt_wf t /\ nv t = length leaves.
Proof.
  unfold compute_cone_tt. case_decide; [|done]. intros (m & E & Hr)%bind_Some.
  revert root t Hr. change (forall x t, m x = Some t -> tt_wf t /\ nv t = length leaves).
  eapply (ofold_inv (cone_step s) (fun m => forall x t, m x = Some t -> tt_wf t /\ nv t = length leaves)); [| |exact E].
  - clear m E. intros m n m' _ Hm. unfold cone_step. intros (pi & Ep & H')%bind_Some. destruct pi; [by injection H' as <-|].
    apply bind_Some in H' as ([a b] & _ & H'). apply bind_Some in H' as (ta & Ha & H'). apply bind_Some in H' as (tb & Hb & H').
    cbn [fst snd] in *. case_decide as Hnv; [|done]. injection H' as <-. unfold insert_new.
    destruct (m n) as [t0|] eqn:En; [done|]. intros x t Hx.
    destruct (decide (x = n)) as [->|Hne]; [|rewrite setv_ne in Hx by done; by eapply Hm]. rewrite setv_eq in Hx. injection Hx as <-.
    destruct (Hm _ _ Ha) as (Wa & Na). destruct (Hm _ _ Hb) as (Wb & Nb).
    assert (Wa' := not_if_wf ta (scompl a) Wa). assert (Wb' := not_if_wf tb (scompl b) Wb).
    assert (nv (tt_not_if ta (scompl a)) = nv (tt_not_if tb (scompl b))) by (rewrite !nv_not_if; congruence).
    split; [by apply and_wf|]. cbn; by rewrite nv_not_if.
  - intros x t Hx. destruct (leaf_table_value leaves (fun _ => false) x t Hx) as (? & ? & _). done.
Qed.

Lemma gate_dec s n : is_gate s n \/ ~ is_gate s n.
Proof.
  destruct (ks s !! n) as [[a b]|] eqn:E; [|right; intros (? & ? & ? & _); congruence].
  destruct (decide (n <> 0 /\ a <> b)) as [[? ?]|Hn]; [left; by exists a, b|right].
  intros (? & ? & E' & ? & ?). rewrite E in E'. injection E' as <- <-. tauto.
Qed.
Lemma fan_valid s n fs : shape s -> aig_fan s n = Some fs -> Forall (fun m => m < size s) fs.
Proof.
  intros S H. apply Forall_forall. intros m Hm. destruct (gate_dec s n) as [(a & b & E & Hn & Hab)|Hg].
  - rewrite (gate_fan s n a b E Hn Hab) in H. injection H as <-. apply (sh_gate _ S n). exists a, b. split; [done|]. split; [done|]. split; [done|].
    rewrite !elem_of_cons, elem_of_nil in Hm. naive_solver.
  - unfold aig_fan, Clean.fanins in H. apply bind_Some in H as (l & H & [= <-]).
    case_decide as Hn; [injection H as <-; by apply elem_of_nil in Hm|].
    unfold is_ci in H. destruct (ks s !! n) as [[a b]|] eqn:E; [|done]. cbn [mbind option_bind fst snd] in H.
    case_bool_decide as Hab; [injection H as <-; by apply elem_of_nil in Hm|]. destruct Hg. by exists a, b.
Qed.
Lemma erase_sub x l y : y ∈ erase_first x l -> y ∈ l.
Proof. induction l as [|z l IH]; cbn [erase_first]; [done|]. case_decide; [by right|]. rewrite !elem_of_cons. naive_solver. Qed.
Lemma one_level_valid s depth limit st st' : shape s -> Forall (fun m => m < size s) st.2 ->
  one_level_build_cut s depth limit st = Some (Some st') -> Forall (fun m => m < size s) st'.2.
Proof.
  intros S Hv. unfold one_level_build_cut. intros ([[bc bf] lv] & _ & H)%bind_Some. case_decide; [done|].
  apply bind_Some in H as (c & _ & H). case_decide; [|done]. case_decide; [done|].
  apply bind_Some in H as (fs & Hf%fan_valid & H); [|done]. case_decide; [|done]. injection H as <-.
  assert (Hv1 : Forall (fun m => m < size s) (erase_first bf st.2)).
  { apply Forall_forall. intros y Hy%erase_sub. by eapply Forall_forall in Hv. }
  generalize dependent (erase_first bf st.2). intros l _ Hl. generalize (st.1). revert l Hl.
  induction Hf as [|c0 fs Hc Hf IH]; intros l Hl vis; [done|]. cbn [foldl]. unfold add_leaf at 2. cbn [fst snd].
  destruct (vis c0); [by apply IH|]. apply IH. apply Forall_app. by repeat constructor.
Qed.
Lemma build_cut_valid s depth limit fuel st st' : shape s -> Forall (fun m => m < size s) st.2 ->
  build_cut s depth limit fuel st = Some st' -> Forall (fun m => m < size s) st'.2.
Proof.
  intros S. revert st. induction fuel as [|fuel IH]; intros st Hv; [done|]. cbn [build_cut].
  intros ([st1|] & E & H)%bind_Some; [|by injection H as <-]. eapply IH; [|exact H]. by eapply one_level_valid.
Qed.
Lemma cut_valid s depth limit root leaves : shape s -> reconvergence_driven_cut s depth limit root = Some leaves ->
  Forall (fun m => m < size s) leaves.
Proof.
  intros S. unfold reconvergence_driven_cut. intros (fs & Hf%fan_valid & H)%bind_Some; [|done].
  apply bind_Some in H as (st & H%build_cut_valid & E); [|done|done]. case_decide; [|done]. by injection E as <-.
Qed.

(* ---- the pass ---- *)
(* s' has the inputs and outputs of s and, for every valuation of s, one that
   agrees with it on the nodes of s and has the same output values *)
Record keeps (s s' : aig) : Prop := {
  kp_ins : ins s' = ins s; kp_npi : npi s' = npi s; kp_npo : npo s' = npo s; kp_lat : lat s' = lat s;
  kp_outs : length (outs s') = length (outs s); kp_size : size s <= size s';
  kp_val : forall env v, valuation s env v -> exists v', valuation s' env v' /\ (forall n, n < size s -> v' n = v n) /\
    map (sval v') (outs s') = map (sval v) (outs s)
}.
Lemma keeps_refl s : keeps s s.
Proof. split; try done. intros env v V. by exists v. Qed.
Lemma keeps_trans s1 s2 s3 : keeps s1 s2 -> keeps s2 s3 -> keeps s1 s3.
Proof.
  intros [] []. split; try congruence; try lia. intros env v V. destruct (kp_val0 env v V) as (v1 & V1 & A1 & E1).
  destruct (kp_val1 env v1 V1) as (v2 & V2 & A2 & E2). exists v2. split; [done|]. split; [|congruence].
  intros n Hn. rewrite A2 by lia. by apply A1.
Qed.
Lemma keeps_comb s s' : keeps s s' -> comb s -> comb s'.
Proof. intros [] [C1 C2]. split; congruence. Qed.

Lemma shape_grown s s' : shape s -> grown s s' -> shape s'.
Proof.
  intros S G. pose proof (gr_ext _ _ G) as He. destruct (ext_ks _ _ He) as [t Et]. pose proof (ext_size _ _ He) as Hs.
  assert (Hl : forall n k, ks s !! n = Some k -> ks s' !! n = Some k) by (intros n k E; rewrite Et; by apply lookup_app_l_Some).
  split.
  - apply Hl, S.
  - intros k n Hk. rewrite (ext_ins _ _ He) in Hk. destruct (sh_in _ S k n Hk) as [? ?]. auto.
  - intros n a E. destruct (decide (size s <= n)) as [Hn|Hn]; [by destruct (gr_new _ _ G n a a Hn E)|].
    rewrite Et, lookup_app_l in E by (unfold size in *; lia). rewrite (ext_ins _ _ He). by eapply sh_ci.
  - intros n m (a & b & E & Hn & Hab & Hm). destruct (decide (size s <= n)) as [Hge|Hlt].
    + destruct (gr_new _ _ G n a b Hge E) as (_ & Ha & Hb). apply lookup_lt_Some in E. unfold size in *. destruct Hm as [->| ->]; lia.
    + rewrite Et, lookup_app_l in E by (unfold size in *; lia). enough (m < size s) by lia. apply (sh_gate _ S n). by exists a, b.
  - rewrite (ext_outs _ _ He). eapply Forall_impl; [apply S|]. intros f. unfold valid. lia.
  - rewrite (ext_npi _ _ He), (ext_ins _ _ He). apply S.
  - rewrite (ext_npo _ _ He), (ext_outs _ _ He). apply S.
  - apply G.
Qed.
Lemma keeps_grown s s' : shape s -> grown s s' -> keeps s s'.
Proof.
  intros S G. pose proof (gr_ext _ _ G) as He. split.
  1-4: apply He. 1: by rewrite (ext_outs _ _ He). 1: by apply ext_size.
  intros env v V. exists (vx (size s) s' v). split; [by apply vx_valuation|]. split; [intros n Hn; by apply vx_old|].
  rewrite (ext_outs _ _ He). apply map_ext_in. intros f Hf. unfold sval. rewrite vx_old; [done|].
  apply elem_of_list_In in Hf. by apply (proj1 (Forall_forall _ _) (sh_out _ S)).
Qed.
Lemma keeps_subst fuel s old new s' : shape s -> valid s new -> equivalent s old new ->
  substitute_node fuel old new s = Some (Datatypes.tt, s') -> shape s' /\ keeps s s'.
Proof.
  intros S Hv He H. destruct (subst_loop_shape fuel [(old, new)] s s' H S) as [S' (? & ? & ? & ? & ? & ?)]; [by repeat constructor|].
  split; [done|]. split; try done; [lia|]. intros env v V. exists v.
  destruct (subst_loop_val env v (map (sval v) (outs s)) fuel _ _ _ H) as [V' E]; [done| |done].
  repeat constructor. by apply (He env).
Qed.

Section pass.
Variable order : list nat -> list nat.
Lemma on_signal_keeps p fuel dmax rdepth leaves cone root new x x' : shape (rnet x) -> valid (rnet x) new -> equivalent (rnet x) root new ->
  on_signal order p fuel dmax rdepth leaves cone root new x = Some x' -> shape (rnet x') /\ keeps (rnet x) (rnet x').
Proof.
  intros S Hv He. unfold on_signal. intros ([saved v1] & _ & H)%bind_Some. apply bind_Some in H as ([added v2] & _ & H).
  apply bind_Some in H as (r & _ & H). apply bind_Some in H as ([d dep] & _ & H). case_decide as Hc.
  - apply bind_Some in H as ([s' v3] & Hs & H). apply bind_Some in H as (fan & _ & H). apply bind_Some in H as ([u dep'] & _ & [= <-]).
    unfold sub_ntk_replace in Hs. apply bind_Some in Hs as ([[] s1] & Hs & Hv3). apply bind_Some in Hv3 as (v' & _ & [= <- <-]).
    cbn [rnet]. by eapply keeps_subst.
  - apply bind_Some in H as ([? v3] & _ & H). apply bind_Some in H as ([? v4] & _ & [= <-]). split; [done|apply keeps_refl].
Qed.
Lemma refactor_node_keeps p fuel dmax rdepth x n x' : shape (rnet x) -> comb (rnet x) ->
  refactor_node order p fuel dmax rdepth x n = Some x' -> shape (rnet x') /\ keeps (rnet x) (rnet x').
Proof.
  intros S C. unfold refactor_node. intros (ci & _ & H)%bind_Some. apply bind_Some in H as (dead & _ & H). apply bind_Some in H as (fo & _ & H).
  case_decide; [injection H as <-; split; [done|apply keeps_refl]|].
  apply bind_Some in H as (leaves & Hl%cut_valid & H); [|done]. apply bind_Some in H as (cone & _ & H).
  case_decide; [|injection H as <-; split; [done|apply keeps_refl]].
  apply bind_Some in H as (t & Ht & H). unfold replace_sub_ntk in H. apply bind_Some in H as ([f s1] & Hf & H).
  pose proof (cone_value _ _ _ _ _ S C Ht) as Htab.
  assert (Hvl : Forall (valid (rnet x)) (map (fun l => Sig l false) leaves)).
  { apply Forall_map. eapply Forall_impl; [exact Hl|]. intros m Hm. exact Hm. }
  destruct (cone_table_wf _ _ _ _ _ Ht) as [Wt Nt].
  destruct (factoring_grown (rnet x) t (map (fun l => Sig l false) leaves) f s1 S Wt) as (G & Vf & _ & Hval); [rewrite map_length; lia|done|done|].
  pose proof (shape_grown _ _ S G) as S1. pose proof (keeps_grown _ _ S G) as K1.
  apply on_signal_keeps in H; cbn [rnet] in *; [|done|done|].
  { destruct H as [S2 K2]. split; [done|]. by eapply keeps_trans. }
  intros env w W. rewrite (Hval env w W).
  assert (V : valuation (rnet x) env w) by (by eapply grown_valuation).
  destruct (Htab env w V) as (_ & _ & <-). apply eval_ext. intros i Hi. unfold at_leaves. rewrite list_lookup_fmap.
  destruct (leaves !! i) as [l|]; [|done]. cbn. unfold sval. cbn. by rewrite xorb_false_r.
Qed.

Lemma refactor_fold_keeps p fuel dmax rdepth l x x' : shape (rnet x) -> comb (rnet x) ->
  ofold (refactor_node order p fuel dmax rdepth) x l = Some x' -> shape (rnet x') /\ keeps (rnet x) (rnet x').
Proof.
  intros S C. eapply (ofold_inv _ (fun y => shape (rnet y) /\ keeps (rnet x) (rnet y))); [|split; [done|apply keeps_refl]].
  intros y n z _ [Sy Ky] H. apply refactor_node_keeps in H as [Sz Kz]; [|done|by eapply keeps_comb]. split; [done|]. by eapply keeps_trans.
Qed.
Lemma refactor_loop_keeps p fuel s x : shape s -> comb s -> refactor_loop order p fuel s = Some x -> shape (rnet x) /\ keeps s (rnet x).
Proof.
  intros S C. unfold refactor_loop. intros ([dep dmax] & _ & H)%bind_Some. apply bind_Some in H as (rd & _ & H).
  apply bind_Some in H as (fan & _ & H). by apply refactor_fold_keeps in H.
Qed.
End pass.

Lemma keeps_computes s s' : network s -> network s' -> keeps s s' -> forall env l, computes s' env l <-> computes s env l.
Proof.
  intros W W' K.
  assert (Hdir : forall env l, computes s env l -> computes s' env l).
  { intros env l (v & V & ->). destruct (kp_val _ _ K env v V) as (v' & V' & _ & E).
    exists v'. split; [done|]. unfold pos. rewrite (kp_npo _ _ K), <- !firstn_map, E. done. }
  intros env l. split; [|apply Hdir]. intros Hl.
  destruct (net_valuation s env W) as [v V].
  assert (Hs : computes s env (map (sval v) (pos s))) by (by exists v).
  by rewrite (computes_unique s' env l _ W' Hl (Hdir _ _ Hs)).
Qed.
