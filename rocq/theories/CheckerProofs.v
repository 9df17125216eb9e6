(* Proofs about Checker.v. *)
From Verif Require Import Base Aig AigSem AigProofs AigApi AigReach Topo Clean NetProofs Tt TtCache Klut KlutSem Isop Cnf CnfProofs PropCnf TtProofs Choice ChoiceCompute Mapping
  FactorCircuit SopBalanceProofs FlowProofs Checker.
Local Open Scope nat_scope.

Lemma cnf_sat_app x a b : cnf_sat x (a ++ b) <-> cnf_sat x a /\ cnf_sat x b.
Proof. unfold cnf_sat. setoid_rewrite elem_of_app. firstorder. Qed.
Lemma on_compl_sat x a b : cnf_sat x [[make_lit a false; make_lit b false]; [make_lit a true; make_lit b true]] <-> x a = negb (x b).
Proof.
  unfold cnf_sat, clause_sat. split.
  - intros H. destruct (H _ ltac:(left)) as (l & Hl & E). destruct (H [make_lit a true; make_lit b true] ltac:(right; left)) as (l' & Hl' & E').
    rewrite !elem_of_cons, elem_of_nil in Hl, Hl'.
    destruct Hl as [->|[->|[]]]; destruct Hl' as [->|[->|[]]]; rewrite lit_val_make in E, E'; destruct (x a), (x b); done.
  - intros H c Hc. rewrite !elem_of_cons, elem_of_nil in Hc. destruct Hc as [->|[->|[]]]; destruct (x b) eqn:Eb.
    + exists (make_lit b false). split; [right; left|]. by rewrite lit_val_make, Eb.
    + exists (make_lit a false). split; [left|]. by rewrite lit_val_make, H.
    + exists (make_lit a true). split; [left|]. by rewrite lit_val_make, H.
    + exists (make_lit b true). split; [right; left|]. by rewrite lit_val_make, Eb.
Qed.
Lemma on_equal_sat x a b : cnf_sat x [[make_lit a true; make_lit b false]; [make_lit a false; make_lit b true]] <-> x a = x b.
Proof.
  unfold cnf_sat, clause_sat. split.
  - intros H. destruct (H _ ltac:(left)) as (l & Hl & E). destruct (H [make_lit a false; make_lit b true] ltac:(right; left)) as (l' & Hl' & E').
    rewrite !elem_of_cons, elem_of_nil in Hl, Hl'.
    destruct Hl as [->|[->|[]]]; destruct Hl' as [->|[->|[]]]; rewrite lit_val_make in E, E'; destruct (x a), (x b); done.
  - intros H c Hc. rewrite !elem_of_cons, elem_of_nil in Hc. destruct Hc as [->|[->|[]]]; destruct (x b) eqn:Eb.
    + exists (make_lit b false). split; [right; left|]. by rewrite lit_val_make, Eb.
    + exists (make_lit a true). split; [left|]. by rewrite lit_val_make, H.
    + exists (make_lit a false). split; [left|]. by rewrite lit_val_make, H.
    + exists (make_lit b true). split; [right; left|]. by rewrite lit_val_make, Eb.
Qed.

(* the variables given out stay *)
Definition kext (k k' : chk) : Prop := forall n a, k_vars k !! n = Some a -> 1 < a -> k_vars k' !! n = Some a.
Lemma kext_refl k : kext k k.
Proof. by intros n a. Qed.
Lemma kext_trans k1 k2 k3 : kext k1 k2 -> kext k2 k3 -> kext k1 k3.
Proof. intros H1 H2 n a Hn Ha. auto. Qed.
Definition has_var (k : chk) (n a : nat) : Prop := k_vars k !! n = Some a /\ 1 < a.
Lemma has_var_ext k k' n a : kext k k' -> has_var k n a -> has_var k' n a.
Proof. intros H [H1 H2]. split; auto. Qed.

Section sound.
Context (c : cnet) (rs : list (nat * nat)) (env : nat -> bool) (v : nat -> bool).
Hypothesis Hv : valuation (cb c) env v.
Hypothesis Hgate : forall n, is_pi (cb c) n = Some false -> n <> 0 -> exists a b, ks (cb c) !! n = Some (a, b) /\ a <> b.
Hypothesis Hrs : forall n r p q, repr_of rs n = Some r -> ph (cb c) !! n = Some p -> ph (cb c) !! r = Some q -> v n = xorb (v r) (xorb p q).

Definition agrees (k : chk) (x : nat -> bool) : Prop := forall n a, has_var k n a -> x a = v n.
Record inv (g : nat) (b : bool) (k : chk) : Prop := {
  i_next : 2 <= k_next k;
  i_gold : g < k_next k;
  i_var : forall n a, has_var k n a -> a < k_next k /\ a <> g /\ forall n', k_vars k !! n' = Some a -> n' = n;
  i_sat : forall x, agrees k x -> x g = b -> cnf_sat x (k_cls k)
}.
Definition step (g : nat) (b : bool) (k k' : chk) : Prop := inv g b k' /\ kext k k'.
Lemma agrees_ext k k' x : kext k k' -> agrees k' x -> agrees k x.
Proof using. intros He H n a Ha. apply H. by eapply has_var_ext. Qed.

Lemma prepare_may g b k n : inv g b k -> may True (prepare n) k (fun a k' => step g b k k' /\ has_var k' n a).
Proof using.
  intros I. unfold may, prepare. destruct (k_vars k !! n) as [w|] eqn:E; cbn [mbind option_bind]; [|done]. destruct (decide (w <= 1)) as [Hw|Hw].
  - pose proof (i_next _ _ _ I) as H2. assert (Hl : n < length (k_vars k)) by (by apply lookup_lt_Some in E).
    assert (He : kext k (Chk (<[n:=k_next k]> (k_vars k)) (S (k_next k)) (k_cls k))).
    { intros n' a' Hn' Ha'. cbn. rewrite list_lookup_insert_ne; [done|]. intros <-. rewrite E in Hn'. injection Hn' as ->. lia. }
    split; [split; [|exact He]|].
    + split; cbn.
      * lia.
      * pose proof (i_gold _ _ _ I). lia.
      * intros n' a' [Hn' Ha']. cbn in *. destruct (decide (n' = n)) as [->|Hne].
        -- rewrite list_lookup_insert in Hn' by done. injection Hn' as <-. split; [lia|]. pose proof (i_gold _ _ _ I). split; [lia|]. intros n'' Hn''.
           destruct (decide (n'' = n)) as [->|Hne]; [done|]. rewrite list_lookup_insert_ne in Hn'' by done.
           destruct (i_var _ _ _ I n'' (k_next k)) as (Hb & _); [split; [done|lia]|]. lia.
        -- rewrite list_lookup_insert_ne in Hn' by done. destruct (i_var _ _ _ I n' a' (conj Hn' Ha')) as (Hb & Hg & Hu). split; [lia|]. split; [done|].
           intros n'' Hn''. destruct (decide (n'' = n)) as [->|Hne']; [rewrite list_lookup_insert in Hn'' by done; injection Hn'' as <-; lia|].
           rewrite list_lookup_insert_ne in Hn'' by done. auto.
      * intros x Hx Hxg. apply (i_sat _ _ _ I); [|done]. by eapply agrees_ext.
    + split; [cbn; by rewrite list_lookup_insert|lia].
  - split; [split; [done|apply kext_refl]|]. split; [done|lia].
Qed.
Lemma prepares_may g b k l : inv g b k -> may True (mapM prepare l) k (fun vs k' => step g b k k' /\ Forall2 (has_var k') l vs).
Proof using.
  intros I. apply (mapM_may True prepare (fun p r k' => step g b k k' /\ Forall2 (has_var k') p r)).
  - split; [split; [done|apply kext_refl]|]. constructor.
  - intros p n q r k1 _ [[I1 E1] F]. eapply may_mono; [by apply prepare_may|]. intros a k2 [[I2 E2] H]. split; [split; [done|by eapply kext_trans]|].
    apply Forall2_app; [|by constructor]. eapply Forall2_impl; [exact F|]. intros ? ?. by apply has_var_ext.
Qed.
Lemma clauses_may g b k cls : inv g b k -> (forall x, agrees k x -> x g = b -> cnf_sat x cls) -> may True (add_clauses cls) k (fun _ k' => step g b k k').
Proof using.
  intros [I1 I2 I3 I4] H. unfold may, add_clauses. split; [|intros ? ? ? ?; done]. split; try done. cbn. intros x Hx Hxg. apply cnf_sat_app. split; [by apply I4|by apply H].
Qed.
Lemma fresh_may g b k : inv g b k -> may True fresh_var k (fun a k' => step g b k k' /\ a = k_next k).
Proof using.
  intros [I1 I2 I3 I4]. unfold may, fresh_var. split; [|done]. split; [|intros ? ? ? ?; done]. split; cbn; try done; try lia.
  intros n a Hn. destruct (I3 n a Hn) as (? & ? & ?). split; [lia|done].
Qed.

Lemma and2_may g b k n a a' : inv g b k -> v n = sval v a && sval v a' -> may True (add_and2 n a a') k (fun _ k' => step g b k k').
Proof using.
  intros I H. unfold add_and2. apply may_bnd. eapply may_mono; [by apply prepare_may|]. cbn beta. intros w k1 [[I1 E1] W].
  apply may_bnd. eapply may_mono; [by apply prepare_may|]. cbn beta. intros wa k2 [[I2 E2] Wa].
  apply may_bnd. eapply may_mono; [by apply prepare_may|]. cbn beta. intros wb k3 [[I3 E3] Wb].
  eapply may_mono; [apply clauses_may; [done|]|].
  - intros x Hx _. apply C29_gates; [exact 0%N|]. rewrite !lit_val_make.
    rewrite (Hx n w) by (eapply has_var_ext; [|exact W]; by eapply kext_trans).
    rewrite (Hx (sidx a) wa) by (by eapply has_var_ext). rewrite (Hx (sidx a') wb) by done.
    rewrite xorb_false_r. exact H.
  - intros [] k4 [I4 E4]. split; [done|]. by eapply kext_trans; [|eapply kext_trans; [|eapply kext_trans]].
Qed.
Lemma node_may g b k n : inv g b k -> may True (add_node c rs n) k (fun _ k' => step g b k k').
Proof using Hv Hgate Hrs.
  intros I. unfold add_node. apply may_bnd, may_lift_any. intros pi Hpi.
  destruct (decide (pi = true \/ n = 0)) as [Hc|Hc]; [apply may_ret; split; [done|apply kext_refl]|].
  destruct pi; [exfalso; auto|]. assert (Hn : n <> 0) by auto. destruct (Hgate n Hpi Hn) as (a & a' & Hk & Hab).
  apply may_bnd. apply (may_lift True (fans (cb c) n) [a; a']).
  { unfold fans. rewrite Hk. cbn [mbind option_bind fst snd]. rewrite decide_False; [done|]. intros [?|?]; done. }
  apply may_bnd. eapply may_mono; [apply and2_may; [done|]; by eapply val_gate|]. cbn beta. intros [] k1 [I1 E1].
  destruct (repr_of rs n) as [r|] eqn:Er; [|by apply may_ret].
  apply may_bnd, may_lift_any. intros p Hp. apply may_bnd, may_lift_any. intros q Hq.
  apply may_bnd. eapply may_mono; [by apply prepare_may|]. cbn beta. intros wn k2 [[I2 E2] Wn].
  apply may_bnd. eapply may_mono; [by apply prepare_may|]. cbn beta. intros wr k3 [[I3 E3] Wr].
  pose proof (Hrs n r p q Er Hp Hq) as Hnr.
  assert (H3 : kext k k3) by (by eapply kext_trans; [|eapply kext_trans]).
  destruct (xorb p q); [unfold add_compl_equal|unfold add_equal]; (apply may_bnd; eapply may_mono; [by apply fresh_may|]; cbn beta; intros d k4 [[I4 E4] _];
    eapply may_mono; [apply clauses_may; [done|]|intros [] k5 [I5 E5]; split; [done|]; by eapply kext_trans; [|eapply kext_trans]]);
    intros x Hx _; [apply on_compl_sat|apply on_equal_sat]; rewrite (Hx n wn) by (eapply has_var_ext; [|exact Wn]; by eapply kext_trans);
    rewrite (Hx r wr) by (by eapply has_var_ext); rewrite Hnr; by destruct (v r).
Qed.
Lemma cone_may g b k root leaves : inv g b k -> may True (add_cell_cone c rs root leaves) k (fun w k' => step g b k k' /\ has_var k' root w).
Proof using Hv Hgate Hrs.
  intros I. unfold add_cell_cone. apply may_bnd. eapply may_mono; [by apply prepare_may|]. cbn beta. intros w k1 [[I1 E1] W].
  apply may_bnd. eapply may_mono; [by apply prepares_may|]. cbn beta. intros vs k2 [[I2 E2] _].
  apply may_bnd, may_lift_any. intros limit _. apply may_bnd, may_lift_any. intros ns _.
  apply may_bnd. eapply may_mono; [apply (mapM_may True (add_node c rs) (fun _ _ k' => step g b k2 k'))|].
  - split; [done|apply kext_refl].
  - intros p x q r k3 _ [I3 E3]. eapply may_mono; [by apply node_may|]. intros [] k4 [I4 E4]. split; [done|by eapply kext_trans].
  - cbn beta. intros r k3 [I3 E3]. apply may_ret. split; [split; [done|]|].
    + eapply kext_trans; [done|]. by eapply kext_trans.
    + eapply has_var_ext; [|exact W]. by eapply kext_trans.
Qed.

Lemma may_and {S A} T (m : M S A) s (P Q : A -> S -> Prop) : may T m s P -> may T m s Q -> may T m s (fun a s' => P a s' /\ Q a s').
Proof using. unfold may. destruct (m s) as [[a s']|]; done. Qed.
Lemma prepares_cls k l cls : k_cls k = cls -> may True (mapM prepare l) k (fun _ k' => k_cls k' = cls).
Proof using.
  intros H. apply (mapM_may True prepare (fun _ _ k' => k_cls k' = cls)); [done|]. intros p n q r k1 _ H1. unfold may, prepare.
  destruct (k_vars k1 !! n) as [w|]; cbn [mbind option_bind]; [|done]. destruct (decide (w <= 1)); done.
Qed.
(* A valuation of the network gives a model, unless the cell is right. *)
Lemma cell_may m root f leaves : cell_function m root = Some f -> cell_fanin m root = Some leaves -> tt_wf f -> nv f = length leaves ->
  v root <> tt_eval f (fun i => match leaves !! i with Some l => v l | None => false end) ->
  may True (cell_m c rs m root) (recycled (cb c)) (fun _ k => exists x, cnf_sat x (k_cls k)).
Proof using Hv Hgate Hrs.
  intros Hf Hl Hwf Hn Hne. set (b := tt_eval f (fun i => match leaves !! i with Some l => v l | None => false end)) in *.
  assert (I0 : inv 0 b (recycled (cb c))).
  { split; cbn; try lia.
    - intros n a [H1 H2]. cbn in H1. exfalso. apply list_lookup_insert_Some in H1 as [(? & ? & _)|[_ H1]]; [lia|].
      apply elem_of_list_lookup_2, elem_of_list_In, repeat_spec in H1. lia.
    - intros x _ _ cl Hcl. by apply elem_of_nil in Hcl. }
  unfold cell_m. apply may_bnd. apply (may_lift True _ f); [done|]. apply may_bnd. apply (may_lift True _ leaves); [done|].
  apply may_bnd. eapply may_mono; [apply may_and; [by apply (prepares_may 0 b)|by apply prepares_cls]|]. cbn beta. intros vs k1 [[[I1 E1] _] C1].
  apply may_bnd. unfold add_cell_func.
  eapply may_mono; [instantiate (1 := fun g k => inv g b k)|].
  - apply may_bnd. unfold fresh_var, may at 1.
    assert (I2 : inv (k_next k1) b (Chk (k_vars k1) (S (k_next k1)) (k_cls k1))).
    { split; cbn; try (pose proof (i_next _ _ _ I1); lia).
      - intros n a Hna. destruct (i_var _ _ _ I1 n a Hna) as (H1 & _ & H3). split; [lia|]. split; [lia|done].
      - rewrite C1. intros x _ _ cl Hcl. by apply elem_of_nil in Hcl. }
    apply may_bnd. eapply may_mono; [by apply (prepares_may (k_next k1) b)|]. cbn beta. intros ws k2 [[I3 E3] F3].
    apply may_bnd, may_lift_any. intros cls Hcls. apply may_bnd. eapply may_mono; [apply (clauses_may (k_next k1) b); [done|]|].
    + pose proof (Forall2_length _ _ _ F3) as Hlen. rewrite decide_True in Hcls by lia. rewrite firstn_all2 in Hcls by lia.
      destruct (on_function_spec (make_lit (k_next k1) false) (map (fun w => make_lit w false) ws) f Hwf) as (cls' & Ec & Hs); [rewrite map_length; lia|].
      rewrite Hcls in Ec. injection Ec as <-. intros x Hx Hxg. apply Hs. rewrite lit_val_make, xorb_false_r, Hxg. unfold b. apply eval_ext. intros i Hi.
      unfold nth_val. rewrite list_lookup_fmap. destruct (leaves !! i) as [l|] eqn:El.
      * destruct (Forall2_lookup_l _ _ _ _ _ F3 El) as (w & Ew & Hw). rewrite Ew. cbn. rewrite lit_val_make, xorb_false_r. symmetry. by apply Hx.
      * apply lookup_ge_None in El. lia.
    + cbn beta. intros [] k3 [I4 _]. by apply may_ret.
  - cbn beta. intros g k2 I2. apply may_bnd. eapply may_mono; [by apply cone_may|]. cbn beta. intros w k3 [[I3 E3] W].
    unfold add_compl_equal. apply may_bnd. eapply may_mono; [by apply fresh_may|]. cbn beta. intros d k4 [[I4 E4] _].
    unfold may, add_clauses. cbn [k_cls].
    set (x := fun i => if decide (i = g) then b else existsb (fun n => bool_decide (k_vars k4 !! n = Some i) && v n) (seq 0 (length (k_vars k4)))).
    assert (Hx : agrees k4 x).
    { intros n a Hna. destruct (i_var _ _ _ I4 n a Hna) as (H1 & H2 & H3). unfold x. rewrite decide_False by done. destruct Hna as [Hna _].
      apply eq_true_iff_eq. rewrite existsb_exists. split.
      - intros (n' & _ & H). apply andb_true_iff in H as [H%bool_decide_eq_true Hn']. by rewrite <- (H3 n' H).
      - intros Hvn. exists n. split; [apply in_seq; apply lookup_lt_Some in Hna; lia|]. rewrite Hvn, andb_true_r. by apply bool_decide_eq_true_2. }
    assert (Hg : x g = b) by (unfold x; by rewrite decide_True).
    exists x. apply cnf_sat_app. split; [by apply (i_sat _ _ _ I4)|]. apply on_compl_sat. rewrite Hg, (Hx root w) by (by eapply has_var_ext).
    destruct b, (v root); done.
Qed.
End sound.

(* the verdict Same is right *)
Lemma cell_same c rs m solve root : correct_csolver solve -> network (cb c) -> is_combinational (cb c) = true ->
  (forall n r p q env v, repr_of rs n = Some r -> ph (cb c) !! n = Some p -> ph (cb c) !! r = Some q -> valuation (cb c) env v -> v n = xorb (v r) (xorb p q)) ->
  (forall f l, cell_function m root = Some f -> cell_fanin m root = Some l -> tt_wf f /\ nv f = length l) ->
  is_equal_cell c rs m solve root = Some Same -> right_cell (cb c) m root.
Proof.
  intros [_ Hsol] W C Hrs Hwf H. unfold is_equal_cell in H. apply bind_Some in H as ([u k] & Ek & H). injection H as H.
  assert (Hg : forall n, is_pi (cb c) n = Some false -> n <> 0 -> exists a b, ks (cb c) !! n = Some (a, b) /\ a <> b).
  { intros n Hpi Hn. unfold is_pi in Hpi. apply bind_Some in Hpi as ([a b] & Hk & Hpi). injection Hpi as Hpi. exists a, b. split; [done|]. intros <-.
    destruct (net_ci _ W n a Hk) as [|Hi]; [done|]. apply elem_of_list_lookup in Hi as [i Hi]. destruct (net_in _ W i n Hi) as [_ Hk']. rewrite Hk in Hk'. injection Hk' as ->.
    cbn [fst snd] in Hpi. rewrite sdata_sig_of_data, (bool_decide_eq_true_2 (_ = _)) in Hpi by done. cbn in Hpi. apply bool_decide_eq_false in Hpi.
    apply bool_decide_eq_true in C as [C _]. apply lookup_lt_Some in Hi. lia. }
  destruct (cell_function m root) as [f|] eqn:Ef; [|exfalso; unfold cell_m, bnd, lift in Ek; rewrite Ef in Ek; discriminate Ek].
  destruct (cell_fanin m root) as [l|] eqn:El; [|exfalso; unfold cell_m, bnd, lift in Ek; rewrite Ef, El in Ek; discriminate Ek].
  destruct (Hwf f l eq_refl eq_refl) as [H1 H2]. exists l, f. split; [done|]. split; [done|]. intros env v V.
  destruct (decide (v root = tt_eval f (fun i => match l !! i with Some l => v l | None => false end))) as [|Hne]; [done|]. exfalso.
  pose proof (cell_may c rs env v V Hg (fun n r p q A B D => Hrs n r p q env v A B D V) m root f l Ef El H1 H2 Hne) as Hm. unfold may in Hm. rewrite Ek in Hm.
  destruct Hm as [x Hx]. unfold answer_of in H. destruct (solve (k_cls k)) eqn:Es; try done. by apply (Hsol _ Es x).
Qed.

(* members of a class *)
Lemma chain_alike c fuel n o l e : (forall n m, link c n m -> alike (cb c) n m) -> equivs c !! n = Some o -> chain fuel c o = Some l -> e ∈ l -> alike (cb c) e n.
Proof.
  intros Hl. revert n o l. induction fuel as [|fuel IH]; intros n o l Hn Hc He; destruct o as [m|]; cbn in Hc; try discriminate Hc; try (injection Hc as <-; by apply elem_of_nil in He).
  apply bind_Some in Hc as (o' & Eo & Hc). apply bind_Some in Hc as (l' & El & [= <-]). destruct (Hl n m Hn) as [d Hd].
  apply elem_of_cons in He as [->|He].
  - exists d. intros env v V. rewrite (Hd env v V). by destruct (v m), d.
  - destruct (IH m o' l' Eo El He) as [d' Hd']. exists (xorb d d'). intros env v V. rewrite (Hd' env v V), (Hd env v V). by destruct (v m), d, d'.
Qed.
Lemma choices_alike c rs n r : (forall n m, link c n m -> alike (cb c) n m) -> choices c = Some rs -> repr_of rs n = Some r -> alike (cb c) n r.
Proof.
  intros Hl Hc Hr. unfold choices in Hc. apply bind_Some in Hc as (gs & _ & Hc). apply bind_Some in Hc as (ls & El & [= <-]).
  unfold repr_of in Hr. destruct (last (filter (fun p => p.1 = n) (concat ls))) as [[n' r']|] eqn:E; [|done]. injection Hr as ->.
  assert (Hin : (n', r) ∈ filter (fun p : nat * nat => p.1 = n) (concat ls)).
  { rewrite last_lookup in E. by eapply elem_of_list_lookup_2. }
  apply elem_of_list_filter in Hin as [Hn Hin]. cbn in Hn. subst n'. clear E.
  revert ls El Hin. induction gs as [|g gs IH]; intros ls El Hin; cbn in El; [injection El as <-; by apply elem_of_nil in Hin|].
  apply bind_Some in El as (p & Ep & El). apply bind_Some in El as (ls' & El' & [= <-]). cbn in Hin. apply elem_of_app in Hin as [Hin|Hin]; [|by eapply IH].
  apply bind_Some in Ep as (l & Em & [= <-]). apply elem_of_list_fmap in Hin as (e & [= -> ->] & He).
  unfold members in Em. apply bind_Some in Em as (b & _ & Em). destruct b; [|injection Em as <-; by apply elem_of_nil in He].
  apply bind_Some in Em as (o & Eo & Em). by eapply chain_alike.
Qed.
Lemma choices_phase c rs : reachable (cb c) -> (forall n m, link c n m -> alike (cb c) n m) -> choices c = Some rs ->
  forall n r p q env v, repr_of rs n = Some r -> ph (cb c) !! n = Some p -> ph (cb c) !! r = Some q -> valuation (cb c) env v -> v n = xorb (v r) (xorb p q).
Proof.
  intros R Hl Hc n r p q env v Hr Hp Hq V. destruct (choices_alike c rs n r Hl Hc Hr) as [d Hd]. rewrite (Hd env v V).
  destruct (net_valuation (cb c) (fun _ => false) (wf_network _ (reachable_wf _ R))) as [v0 V0].
  rewrite (phase_exact _ _ _ _ R Hp V0), (phase_exact _ _ _ _ R Hq V0), (Hd _ v0 V0). by destruct (v r), (v0 r), d.
Qed.

Lemma first_differing_none f l : first_differing f l = Some None -> forall n, n ∈ l -> exists w, f n = Some w /\ w <> Some Differs.
Proof.
  induction l as [|m l IH]; cbn; intros H n Hn; [by apply elem_of_nil in Hn|]. apply bind_Some in H as (w & Ew & H).
  apply elem_of_cons in Hn as [->|Hn].
  - exists w. split; [done|]. intros ->. done.
  - apply IH; [|done]. destruct w as [[]|]; done.
Qed.
