(* The mapping checker gives no false alarms. *)
From Verif Require Import Base Aig AigSem AigProofs AigApi AigReach Topo Clean NetProofs Tt TtCache Klut KlutSem Isop Cnf CnfProofs PropCnf TtProofs Choice ChoiceCompute Mapping
  FactorCircuit SopBalanceProofs FlowProofs Checker CheckerProofs.
Local Open Scope nat_scope.

(* later states have the variables and the clauses of earlier ones *)
Definition kin (k k' : chk) : Prop := kext k k' /\ 2 <= k_next k' /\ forall x, cnf_sat x (k_cls k') -> cnf_sat x (k_cls k).
Lemma kin_refl k : 2 <= k_next k -> kin k k.
Proof. intros H. split; [apply kext_refl|]. done. Qed.
Lemma kin_trans k1 k2 k3 : kin k1 k2 -> kin k2 k3 -> kin k1 k3.
Proof. intros (E1 & N1 & S1) (E2 & N2 & S2). split; [by eapply kext_trans|]. split; [done|]. auto. Qed.
Lemma kin_var k k' n a : kin k k' -> has_var k n a -> has_var k' n a.
Proof. intros [H _]. by apply has_var_ext. Qed.
Lemma kin_next k k' : kin k k' -> 2 <= k_next k'.
Proof. by intros (_ & ? & _). Qed.

Lemma prepare_in k n : 2 <= k_next k -> may True (prepare n) k (fun a k' => kin k k' /\ has_var k' n a).
Proof.
  intros H2. unfold may, prepare. destruct (k_vars k !! n) as [w|] eqn:E; cbn [mbind option_bind]; [|done]. destruct (decide (w <= 1)) as [Hw|Hw].
  - assert (Hl : n < length (k_vars k)) by (by apply lookup_lt_Some in E). split; [split; [|split; [cbn; lia|done]]|].
    + intros n' a' Hn' Ha'. cbn. rewrite list_lookup_insert_ne; [done|]. intros <-. rewrite E in Hn'. injection Hn' as ->. lia.
    + split; [cbn; by rewrite list_lookup_insert|lia].
  - split; [by apply kin_refl|]. split; [done|lia].
Qed.
Lemma prepares_in k l : 2 <= k_next k -> may True (mapM prepare l) k (fun vs k' => kin k k' /\ Forall2 (has_var k') l vs).
Proof.
  intros I. apply (mapM_may True prepare (fun p r k' => kin k k' /\ Forall2 (has_var k') p r)).
  - split; [by apply kin_refl|]. constructor.
  - intros p n q r k1 _ [E1 F]. eapply may_mono; [apply prepare_in; by eapply kin_next|]. intros a k2 [E2 H]. split; [by eapply kin_trans|].
    apply Forall2_app; [|by constructor]. eapply Forall2_impl; [exact F|]. intros ? ?. by apply kin_var.
Qed.
Lemma clauses_in k cls : 2 <= k_next k -> may True (add_clauses cls) k (fun _ k' => kin k k' /\ forall x, cnf_sat x (k_cls k') -> cnf_sat x cls).
Proof.
  intros H2. unfold may, add_clauses. split; [split; [by intros n a|split; [done|]]|]; cbn; intros x [? ?]%cnf_sat_app; done.
Qed.
Lemma fresh_in k : 2 <= k_next k -> may True fresh_var k (fun a k' => kin k k').
Proof. intros H2. unfold may, fresh_var. split; [by intros n a|]. split; [cbn; lia|done]. Qed.

(* the clauses of a gate are there *)
Definition gate_in (k : chk) (n : nat) (a b : signal) : Prop := exists w wa wb, has_var k n w /\ has_var k (sidx a) wa /\ has_var k (sidx b) wb /\
  forall x, cnf_sat x (k_cls k) -> x w = xorb (x wa) (scompl a) && xorb (x wb) (scompl b).
Lemma gate_in_ext k k' n a b : kin k k' -> gate_in k n a b -> gate_in k' n a b.
Proof.
  intros H (w & wa & wb & H1 & H2 & H3 & H4). exists w, wa, wb. do 3 (split; [by eapply kin_var|]). intros x Hx. apply H4. by apply H.
Qed.
Lemma and2_in k n a b : 2 <= k_next k -> may True (add_and2 n a b) k (fun _ k' => kin k k' /\ gate_in k' n a b).
Proof.
  intros I. unfold add_and2. apply may_bnd. eapply may_mono; [by apply prepare_in|]. cbn beta. intros w k1 [E1 W].
  apply may_bnd. eapply may_mono; [apply prepare_in; by eapply kin_next|]. cbn beta. intros wa k2 [E2 Wa].
  apply may_bnd. eapply may_mono; [apply prepare_in; by eapply kin_next|]. cbn beta. intros wb k3 [E3 Wb].
  eapply may_mono; [apply clauses_in; by eapply kin_next|]. cbn beta. intros [] k4 [E4 H].
  split; [by eapply kin_trans; [|eapply kin_trans; [|eapply kin_trans]]|]. exists w, wa, wb.
  split; [eapply kin_var; [|exact W]; by eapply kin_trans; [|eapply kin_trans]|]. split; [eapply kin_var; [|exact Wa]; by eapply kin_trans|].
  split; [by eapply kin_var|]. intros x Hx. specialize (H x Hx). apply C29_gates in H; [|exact 0%N]. rewrite !lit_val_make in H. by rewrite xorb_false_r in H.
Qed.

Section complete.
Context (c : cnet) (rs : list (nat * nat)).

Lemma node_in k n : 2 <= k_next k -> may True (add_node c rs n) k (fun _ k' => kin k k' /\ forall a b, ks (cb c) !! n = Some (a, b) -> n <> 0 -> a <> b -> gate_in k' n a b).
Proof using.
  intros I. unfold add_node. apply may_bnd, may_lift_any. intros pi Hpi.
  destruct (decide (pi = true \/ n = 0)) as [Hc|Hc].
  { apply may_ret. split; [by apply kin_refl|]. intros a b Hk Hn Hab. exfalso. destruct Hc as [->|]; [|done]. unfold is_pi in Hpi. rewrite Hk in Hpi. cbn in Hpi.
    injection Hpi as Hpi. apply andb_true_iff in Hpi as [Hpi _]. apply bool_decide_eq_true in Hpi. done. }
  apply may_bnd, may_lift_any. intros fs Hfs.
  set (p := match fs with [a; b] => (a, b) | _ => (Sig 0 false, Sig 0 false) end).
  assert (Hp : forall a b, ks (cb c) !! n = Some (a, b) -> n <> 0 -> a <> b -> p = (a, b)).
  { intros a b Hk Hn Hab. unfold fans in Hfs. rewrite Hk in Hfs. cbn [mbind option_bind fst snd] in Hfs. rewrite decide_False in Hfs by (intros [?|?]; done).
    injection Hfs as <-. done. }
  clearbody p. destruct p as [a b].
  apply may_bnd. eapply may_mono; [by apply and2_in|]. cbn beta. intros [] k1 [E1 G1].
  assert (Hgo : forall k', kin k1 k' -> kin k k' /\ forall a b, ks (cb c) !! n = Some (a, b) -> n <> 0 -> a <> b -> gate_in k' n a b).
  { intros k' E'. split; [by eapply kin_trans|]. intros a' b' Hk Hn Hab. specialize (Hp a' b' Hk Hn Hab). injection Hp as -> ->. by eapply gate_in_ext. }
  destruct (repr_of rs n) as [r|] eqn:Er; [|apply may_ret, Hgo, kin_refl; by eapply kin_next].
  apply may_bnd, may_lift_any. intros u _. apply may_bnd, may_lift_any. intros u' _.
  apply may_bnd. eapply may_mono; [apply prepare_in; by eapply kin_next|]. cbn beta. intros wn k2 [E2 _].
  apply may_bnd. eapply may_mono; [apply prepare_in; by eapply kin_next|]. cbn beta. intros wr k3 [E3 _].
  destruct (xorb u u'); [unfold add_compl_equal|unfold add_equal]; (apply may_bnd; eapply may_mono; [apply fresh_in; by eapply kin_next|]; cbn beta; intros d k4 E4;
    eapply may_mono; [apply clauses_in; by eapply kin_next|]; cbn beta; intros [] k5 [E5 _]; apply Hgo;
    by eapply kin_trans; [|eapply kin_trans; [|eapply kin_trans]]).
Qed.
Lemma nodes_in k ns : 2 <= k_next k -> may True (mapM (add_node c rs) ns) k (fun _ k' => kin k k' /\
  forall n a b, n ∈ ns -> ks (cb c) !! n = Some (a, b) -> n <> 0 -> a <> b -> gate_in k' n a b).
Proof using.
  intros I. apply (mapM_may True (add_node c rs) (fun p _ k' => kin k k' /\ forall n a b, n ∈ p -> ks (cb c) !! n = Some (a, b) -> n <> 0 -> a <> b -> gate_in k' n a b)).
  - split; [by apply kin_refl|]. intros n a b Hn. by apply elem_of_nil in Hn.
  - intros p n q r k1 _ [E1 G]. eapply may_mono; [apply node_in; by eapply kin_next|]. intros u k2 [E2 H]. split; [by eapply kin_trans|].
    intros n' a b [Hn'|Hn']%elem_of_app Hk H0 Hab; [eapply gate_in_ext; [exact E2|by apply G]|]. apply elem_of_list_singleton in Hn' as ->. by apply H.
Qed.

(* the cone is closed under fanins that are not below the limit *)
Lemma collect_closed fuel limit seen queue out : collect fuel c limit seen queue = Some out ->
  (forall n, n ∈ seen \/ n ∈ queue -> n ∈ out) /\
  (forall n fs, n ∈ out -> n ∈ seen \/ (fans (cb c) n = Some fs -> Forall (fun f => limit <= sidx f) fs -> forall f, f ∈ fs -> sidx f ∈ out)).
Proof using.
  revert seen queue. induction fuel as [|fuel IH]; intros seen [|n q] H; cbn [collect] in H; try discriminate H.
  1,2: injection H as <-; split; [intros n [?|Hn]; [done|by apply elem_of_nil in Hn]|by left].
  destruct (decide (n ∈ seen)) as [Hs|Hs].
  - destruct (IH _ _ H) as [H1 H2]. split; [|done]. intros n' [Hn'|Hn']; [auto|]. apply elem_of_cons in Hn' as [->|Hn']; auto.
  - apply bind_Some in H as (es & _ & H). apply bind_Some in H as (fs & Ef & H). destruct (IH _ _ H) as [H1 H2]. split.
    + intros n' [Hn'|Hn']; [apply H1; left; by right|]. apply elem_of_cons in Hn' as [->|Hn']; [apply H1; left; left|apply H1; right; apply elem_of_app; by left].
    + intros n' fs' Hn'. destruct (H2 n' fs' Hn') as [Hs'|Hs']; [|by right]. apply elem_of_cons in Hs' as [->|Hs']; [|by left]. right. intros Ef' Hlim f Hf.
      rewrite Ef in Ef'. injection Ef' as <-. apply H1. right. apply elem_of_app. right. apply elem_of_app. right.
      replace (forallb (fun m => limit <=? m) (map sidx fs)) with true; [by apply elem_of_list_fmap_1|]. symmetry. apply forallb_forall. intros y Hy.
      apply in_map_iff in Hy as (g & <- & Hg). rewrite Forall_forall in Hlim. apply Nat.leb_le, Hlim. by apply elem_of_list_In.
Qed.

Context (Hord : forall n a b, ks (cb c) !! n = Some (a, b) -> is_gate (cb c) n -> sidx a < n /\ sidx b < n).

Lemma inside_limit l r limit n : (forall n, inside (cb c) l r n -> n ∉ l -> is_gate (cb c) n) -> (forall e, e ∈ l -> limit <= e) -> inside (cb c) l r n -> limit <= n.
Proof using Hord.
  intros Hcut Hl. induction (lt_wf n) as [n _ IH]. intros Hn. destruct (decide (n ∈ l)) as [|Hnl]; [by apply Hl|].
  pose proof (Hcut n Hn Hnl) as G. pose proof G as (a & b & Hk & _). destruct (Hord n a b Hk G) as [H1 _].
  pose proof (IH (sidx a) H1 (inside_left _ _ _ _ _ _ Hn Hnl Hk)). lia.
Qed.
Lemma inside_cone l r limit ns n : (forall n, inside (cb c) l r n -> n ∉ l -> is_gate (cb c) n) -> (forall e, e ∈ l -> limit <= e) ->
  cone c r limit = Some ns -> inside (cb c) l r n -> n < size (cb c) -> n ∈ ns.
Proof using Hord.
  intros Hcut Hl Hc Hn Hsz. unfold cone in Hc. apply bind_Some in Hc as (seen & Es & [= <-]). apply elem_of_list_filter.
  split; [|apply elem_of_seq; lia]. destruct (collect_closed _ _ _ _ _ Es) as [H1 H2]. clear Hsz.
  induction Hn as [|n a b Hn IH Hnl Hk|n a b Hn IH Hnl Hk]; [apply H1; right; by left| |];
    (destruct (H2 n [a; b] IH) as [Hs|Hs]; [by apply elem_of_nil in Hs|]);
    pose proof (Hcut n Hn Hnl) as G; destruct G as (a' & b' & Hk' & H0 & Hab); rewrite Hk in Hk'; injection Hk' as <- <-;
    (apply Hs; [unfold fans; rewrite Hk; cbn [mbind option_bind fst snd]; rewrite decide_False by (intros [?|?]; done); done| |
      rewrite ?elem_of_cons; auto]);
    repeat constructor; (eapply inside_limit; [exact Hcut|exact Hl|]); by econstructor.
Qed.

(* what the parts of a query leave behind *)
Definition cone_there (l : list nat) (r w : nat) (k : chk) : Prop := has_var k r w /\ forall n a b, inside (cb c) l r n -> n ∉ l -> ks (cb c) !! n = Some (a, b) -> gate_in k n a b.
Definition func_there (f : tt) (l : list nat) (g : nat) (k : chk) : Prop := exists ws, Forall2 (has_var k) l ws /\
  forall x, cnf_sat x (k_cls k) -> x g = tt_eval f (fun i => match ws !! i with Some w => x w | None => false end).
Lemma cone_there_ext l r w k k' : kin k k' -> cone_there l r w k -> cone_there l r w k'.
Proof using. intros E [H1 H2]. split; [by eapply kin_var|]. intros. eapply gate_in_ext; eauto. Qed.
Lemma func_there_ext f l g k k' : kin k k' -> func_there f l g k -> func_there f l g k'.
Proof using.
  intros E (ws & F & H). exists ws. split; [eapply Forall2_impl; [exact F|]; intros ? ?; by apply kin_var|]. intros x Hx. apply H. by apply E.
Qed.
Lemma cone_in k r l : 2 <= k_next k -> may True (add_cell_cone c rs r l) k (fun w k' => kin k k' /\
  ((forall n, inside (cb c) l r n -> n ∉ l -> is_gate (cb c) n) -> cone_there l r w k')).
Proof using Hord.
  intros I. unfold add_cell_cone. apply may_bnd. eapply may_mono; [by apply prepare_in|]. cbn beta. intros w k1 [E1 W].
  apply may_bnd. eapply may_mono; [apply prepares_in; by eapply kin_next|]. cbn beta. intros vs k2 [E2 _].
  apply may_bnd, may_lift_any. intros limit Hlim. apply may_bnd, may_lift_any. intros ns Hns.
  apply may_bnd. eapply may_mono; [apply nodes_in; by eapply kin_next|]. cbn beta. intros us k3 [E3 G]. apply may_ret.
  split; [by eapply kin_trans; [|eapply kin_trans]|]. intros Hcut. split; [eapply kin_var; [|exact W]; by eapply kin_trans|].
  intros n a b Hn Hnl Hk. destruct (Hcut n Hn Hnl) as (a' & b' & Hk' & H0 & Hab). rewrite Hk in Hk'. injection Hk' as <- <-.
  apply G; try done. eapply inside_cone; try done; [|by apply lookup_lt_Some in Hk].
  intros e He. destruct l as [|y l]; [done|]. injection Hlim as <-. clear -He. revert He. induction l as [|z l IH]; cbn; intros He.
  - by apply elem_of_list_singleton in He as ->.
  - rewrite !elem_of_cons in *. destruct He as [->|[->|He]]; [etrans; [apply Nat.le_min_r|]; apply IH; by left|lia|etrans; [apply Nat.le_min_r|]; apply IH; by right].
Qed.
Lemma func_in k f l : 2 <= k_next k -> may True (add_cell_func f l) k (fun g k' => kin k k' /\ (tt_wf f -> nv f = length l -> func_there f l g k')).
Proof using.
  intros I. unfold add_cell_func. apply may_bnd. eapply may_mono; [by apply fresh_in|]. cbn beta. intros g k1 E1.
  apply may_bnd. eapply may_mono; [apply prepares_in; by eapply kin_next|]. cbn beta. intros ws k2 [E2 F].
  apply may_bnd, may_lift_any. intros cls Hcls. apply may_bnd. eapply may_mono; [apply clauses_in; by eapply kin_next|]. cbn beta. intros [] k3 [E3 H]. apply may_ret.
  split; [by eapply kin_trans; [|eapply kin_trans]|]. intros Hwf Hn. exists ws. split; [eapply Forall2_impl; [exact F|]; intros ? ?; by apply kin_var|].
  intros x Hx. pose proof (Forall2_length _ _ _ F) as Hlen. rewrite decide_True in Hcls by lia. rewrite firstn_all2 in Hcls by lia.
  destruct (on_function_spec (make_lit g false) (map (fun w => make_lit w false) ws) f Hwf) as (cls' & Ec & Hs); [rewrite map_length; lia|].
  rewrite Hcls in Ec. injection Ec as <-. specialize (H x Hx). apply Hs in H. rewrite lit_val_make, xorb_false_r in H. rewrite H. apply eval_ext. intros i Hi.
  unfold nth_val. rewrite list_lookup_fmap. destruct (ws !! i) as [w|]; cbn; [by rewrite lit_val_make, xorb_false_r|done].
Qed.
(* an exact cell gives its root the value of its LUT in every model *)
Lemma exact_model m r l f k w g x : exact_cell (cb c) m r -> cell_fanin m r = Some l -> cell_function m r = Some f ->
  cone_there l r w k -> func_there f l g k -> cnf_sat x (k_cls k) -> x g = x w.
Proof using.
  intros (l' & f' & El & Ef & _ & _ & _ & Hv) El' Ef' [W G] (ws & F & Hf) Hx. rewrite El in El'. rewrite Ef in Ef'. injection El' as ->. injection Ef' as ->.
  set (v := fun n => x (default 0 (k_vars k !! n))). assert (Hvar : forall n a, has_var k n a -> v n = x a) by (intros n a [H _]; unfold v; by rewrite H).
  rewrite <- (Hvar r w W). rewrite (Hv v).
  - rewrite (Hf x Hx). apply eval_ext. intros i _. destruct (ws !! i) as [u|] eqn:Eu.
    + destruct (Forall2_lookup_r _ _ _ _ _ F Eu) as (e & -> & He). symmetry. by apply Hvar.
    + apply lookup_ge_None in Eu. rewrite <- (Forall2_length _ _ _ F) in Eu. apply lookup_ge_None in Eu. by rewrite Eu.
  - intros n a b Hn Hnl Hk. destruct (G n a b Hn Hnl Hk) as (u & ua & ub & U & Ua & Ub & H). unfold sval.
    by rewrite (Hvar n u U), (Hvar _ ua Ua), (Hvar _ ub Ub), (H x Hx).
Qed.
Lemma compl_in k a b : 2 <= k_next k -> may True (add_compl_equal a b) k (fun _ k' => kin k k' /\ forall x, cnf_sat x (k_cls k') -> x a = negb (x b)).
Proof using.
  intros I. unfold add_compl_equal. apply may_bnd. eapply may_mono; [by apply fresh_in|]. cbn beta. intros d k1 E1.
  eapply may_mono; [apply clauses_in; by eapply kin_next|]. cbn beta. intros [] k2 [E2 H]. split; [by eapply kin_trans|]. intros x Hx. by apply on_compl_sat, H.
Qed.
Lemma cell_unsat m r k : 2 <= k_next k -> exact_cell (cb c) m r -> may True (cell_m c rs m r) k (fun _ k' => forall x, ~ cnf_sat x (k_cls k')).
Proof using Hord.
  intros I He. pose proof He as (l & f & El & Ef & Hwf & Hn & Hcut & _). unfold cell_m. apply may_bnd. apply (may_lift True _ f); [done|]. apply may_bnd. apply (may_lift True _ l); [done|].
  apply may_bnd. eapply may_mono; [by apply prepares_in|]. cbn beta. intros vs k1 [E1 _].
  apply may_bnd. eapply may_mono; [apply func_in; by eapply kin_next|]. cbn beta. intros g k2 [E2 F].
  apply may_bnd. eapply may_mono; [apply cone_in; by eapply kin_next|]. cbn beta. intros w k3 [E3 G].
  eapply may_mono; [apply compl_in; by eapply kin_next|]. cbn beta. intros [] k4 [E4 H] x Hx. pose proof (H x Hx) as H1.
  rewrite (exact_model m r l f k4 w g x He El Ef) in H1; [by destruct (x w)|eapply cone_there_ext; [exact E4|auto]| |done].
  eapply func_there_ext; [|by apply F]. by eapply kin_trans.
Qed.
Lemma root_loop_in fuel m k q : 2 <= k_next k -> may True (root_loop fuel c rs m q) k (fun _ k' => kin k k').
Proof using Hord.
  revert k q. induction fuel as [|fuel IH]; intros k [|n q] I; cbn [root_loop]; try (apply may_ret; by apply kin_refl); [done|].
  apply may_bnd, may_lift_any. intros pi _. destruct (decide _); [by apply IH|]. apply may_bnd, may_lift_any. intros b _. destruct b; [|done].
  apply may_bnd, may_lift_any. intros f _. apply may_bnd, may_lift_any. intros l _.
  apply may_bnd. eapply may_mono; [by apply prepares_in|]. cbn beta. intros vs k1 [E1 _].
  apply may_bnd. eapply may_mono; [apply cone_in; by eapply kin_next|]. cbn beta. intros w k2 [E2 _].
  apply may_bnd. eapply may_mono; [apply func_in; by eapply kin_next|]. cbn beta. intros g k3 [E3 _].
  apply may_bnd. eapply may_mono; [apply compl_in; by eapply kin_next|]. cbn beta. intros [] k4 [E4 _].
  eapply may_mono; [apply IH; by eapply kin_next|]. cbn beta. intros [] k5 E5. by do 4 (eapply kin_trans; [eassumption|]).
Qed.
Lemma root_unsat fuel m r k q : 2 <= k_next k -> is_pi (cb c) r = Some false -> r <> 0 -> exact_cell (cb c) m r ->
  may True (root_loop fuel c rs m (r :: q)) k (fun _ k' => forall x, ~ cnf_sat x (k_cls k')).
Proof using Hord.
  intros I Hpi H0 He. pose proof He as (l & f & El & Ef & Hwf & Hn & Hcut & _). destruct fuel as [|fuel]; [done|]. cbn [root_loop].
  apply may_bnd. apply (may_lift True _ false); [done|]. rewrite decide_False by (intros [?|?]; done).
  apply may_bnd, may_lift_any. intros b _. destruct b; [|done].
  apply may_bnd. apply (may_lift True _ f); [done|]. apply may_bnd. apply (may_lift True _ l); [done|].
  apply may_bnd. eapply may_mono; [by apply prepares_in|]. cbn beta. intros vs k1 [E1 _].
  apply may_bnd. eapply may_mono; [apply cone_in; by eapply kin_next|]. cbn beta. intros w k2 [E2 G].
  apply may_bnd. eapply may_mono; [apply func_in; by eapply kin_next|]. cbn beta. intros g k3 [E3 F].
  apply may_bnd. eapply may_mono; [apply compl_in; by eapply kin_next|]. cbn beta. intros [] k4 [E4 H].
  eapply may_mono; [apply root_loop_in; by eapply kin_next|]. cbn beta. intros [] k5 E5 x Hx. assert (Hx4 : cnf_sat x (k_cls k4)) by (by apply E5). pose proof (H x Hx4) as H1.
  rewrite (exact_model m r l f k4 w g x He El Ef) in H1; [by destruct (x w)| |eapply func_there_ext; [exact E4|auto]|done].
  eapply cone_there_ext; [|by apply G]. by eapply kin_trans.
Qed.
End complete.

Lemma first_differing_always f l o : (forall n, n ∈ l -> f n <> Some (Some Differs)) -> first_differing f l = Some o -> o = None.
Proof.
  induction l as [|m l IH]; cbn; intros H E; [by injection E as <-|]. apply bind_Some in E as (w & Ew & E).
  assert (Hw : w <> Some Differs) by (intros ->; by apply (H m ltac:(left))). apply IH; [intros n Hn; apply H; by right|]. by destruct w as [[]|].
Qed.
Lemma nonpi_gate s n : network s -> is_combinational s = true -> is_pi s n = Some false -> n <> 0 -> is_gate s n.
Proof.
  intros W C Hpi Hn. unfold is_pi in Hpi. apply bind_Some in Hpi as ([a b] & Hk & Hpi). injection Hpi as Hpi. exists a, b. split; [done|]. split; [done|]. intros <-.
  destruct (net_ci _ W n a Hk) as [|Hi]; [done|]. apply elem_of_list_lookup in Hi as [i Hi]. destruct (net_in _ W i n Hi) as [_ Hk']. rewrite Hk in Hk'. injection Hk' as ->.
  cbn [fst snd] in Hpi. rewrite sdata_sig_of_data, (bool_decide_eq_true_2 (_ = _)) in Hpi by done. cbn in Hpi. apply bool_decide_eq_false in Hpi.
  apply bool_decide_eq_true in C as [C _]. apply lookup_lt_Some in Hi. lia.
Qed.
Lemma recycled_next s : 2 <= k_next (recycled s).
Proof. done. Qed.
