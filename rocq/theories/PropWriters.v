From Verif Require Import Base Verilog Aig Tt TtCache AigProofs AigApi AigSem Topo Clean NetProofs Cnf Klut KlutSem KlutProofs Mapping Writers VerilogProofs WriteLutProofs WriteVerilogProofs PropKlut Demo.
Local Open Scope string_scope.
Local Open Scope list_scope.
Local Open Scope nat_scope.

(* ---------- counts of inputs and outputs ---------- *)
Definition kquiet (s s' : klut) : Prop :=
  kins s' = kins s /\ kouts s' = kouts s /\ knpi s' = knpi s /\ knpo s' = knpo s /\
  forall y, y ∈ kn s' -> kvl y = 3%N -> exists x, x ∈ kn s /\ kvl x = 3%N.
Lemma kquiet_refl s : kquiet s s.
Proof. repeat split; eauto. Qed.
Lemma kquiet_trans a b c : kquiet a b -> kquiet b c -> kquiet a c.
Proof.
  intros (A1 & A2 & A3 & A4 & A5) (B1 & B2 & B3 & B4 & B5). repeat split; try congruence.
  intros y Hy E. destruct (B5 y Hy E) as (x & Hx & Ex). eauto.
Qed.
Lemma kincr_quiet f s s' : kincr f s = Some s' -> kquiet s s'.
Proof.
  unfold kincr. destruct (kn s !! f) as [x|] eqn:E; [|done]. cbn. intros [= <-]. repeat split. cbn. intros y Hy Ey.
  apply elem_of_list_lookup in Hy as [i Hi]. apply list_lookup_insert_Some in Hi as [(-> & <- & _)|[_ Hi]].
  - exists x. split; [by eapply elem_of_list_lookup_2|done].
  - exists y. split; [by eapply elem_of_list_lookup_2|done].
Qed.
Lemma kincrs_quiet l : forall s s', kincrs l s = Some s' -> kquiet s s'.
Proof.
  induction l as [|f l IH]; cbn; intros s s' H; [injection H as <-; apply kquiet_refl|].
  destruct (kincr f s) as [s1|] eqn:E; [|done]. eapply kquiet_trans; [by eapply kincr_quiet|by apply IH].
Qed.
Lemma kraw_quiet l lit s r s' : kcreate_raw l lit s = Some (r, s') -> kquiet s s'.
Proof.
  unfold kcreate_raw. destruct (kincrs _ _) as [s1|] eqn:E; [|done]. cbn. intros [= <- <-]. apply kincrs_quiet in E.
  eapply kquiet_trans; [|exact E]. repeat split. cbn. intros y [Hy|Hy]%elem_of_app Ey; [eauto|].
  apply elem_of_list_singleton in Hy as ->. done.
Qed.
Lemma ktree_quiet (cop : nat -> nat -> M klut nat) init : (forall a b s r s', cop a b s = Some (r, s') -> kquiet s s') ->
  forall fuel l s r s', tree_reduceM fuel cop init l s = Some (r, s') -> kquiet s s'.
Proof.
  intros Hc. induction fuel as [|fuel IH]; intros l s r s' H; [done|]. destruct l as [|x [|y [|z l]]]; cbn [tree_reduceM] in H.
  - injection H as <- <-. apply kquiet_refl.
  - injection H as <- <-. apply kquiet_refl.
  - by eapply Hc.
  - unfold bnd in H. destruct (tree_reduceM fuel cop init (take _ _) s) as [[a s1]|] eqn:E1; [|done].
    destruct (tree_reduceM fuel cop init (drop _ _) s1) as [[b s2]|] eqn:E2; [|done].
    eapply kquiet_trans; [by eapply IH|]. eapply kquiet_trans; [by eapply IH|]. by eapply Hc.
Qed.
Lemma kcounts s : kreachable s -> knpo s <= length (kouts s) /\ knpi s <= length (kins s) /\
  ((exists x, x ∈ kn s /\ kvl x = 3%N) -> knpi s < length (kins s)).
Proof.
  induction 1 as [|s o r s' Hs (I1 & I2 & I3) _ _ _ E].
  - cbn. split; [lia|]. split; [lia|]. intros (x & Hx & Ex). rewrite !elem_of_cons in Hx. destruct Hx as [->|[->|Hx]]; [done..|]. by apply elem_of_nil in Hx.
  - assert (Hq : kquiet s s' -> knpo s' <= length (kouts s') /\ knpi s' <= length (kins s') /\
      ((exists x, x ∈ kn s' /\ kvl x = 3%N) -> knpi s' < length (kins s'))).
    { intros (-> & -> & -> & -> & Q). split; [done|]. split; [done|]. intros (x & Hx & Ex). apply I3. eauto. }
    destruct o; cbn [kstep] in E; try (apply Hq; by eapply kraw_quiet); try (apply Hq; eapply ktree_quiet; [|exact E]; intros; by eapply kraw_quiet).
    + injection E as <- <-. cbn. rewrite app_length. cbn. split; [done|]. split; [lia|]. intros (x & [Hx|Hx]%elem_of_app & Ex).
      * assert (knpi s < length (kins s)) by eauto. lia.
      * apply elem_of_list_singleton in Hx as ->. done.
    + injection E as <- <-. cbn. rewrite app_length. cbn. split; [done|]. split; [lia|]. intros _. lia.
    + unfold bnd, kcreate_po in E. destruct (kincr f s) as [s1|] eqn:E1; [|done]. cbn in E. injection E as <- <-. cbn.
      apply kincr_quiet in E1 as (-> & -> & -> & -> & Q). rewrite app_length. cbn. split; [lia|]. split; [done|]. intros (x & Hx & Ex). apply I3. eauto.
    + unfold bnd, kcreate_ri in E. destruct (kincr f s) as [s1|] eqn:E1; [|done]. cbn in E. injection E as <- <-. cbn.
      apply kincr_quiet in E1 as (-> & -> & -> & -> & Q). rewrite app_length. cbn. split; [lia|]. split; [done|]. intros (x & Hx & Ex). apply I3. eauto.
    + apply Hq. unfold kcreate_node in E. destruct l as [|c l].
      * destruct (decide (nv f = 0)); [|done]. injection E as <- <-. apply kquiet_refl.
      * destruct (cache_insert f (kc s)) as [lit c']. apply kraw_quiet in E. eapply kquiet_trans; [|exact E]. repeat split. cbn. eauto.
Qed.

(* ---------- C33: LUT networks ---------- *)
(* the names of a LUT network's ports and of its own nets and instances *)
Definition lut_reserved (d : string) : Prop := exists n, d = wire_name n \/ d = "name" +:+ sdec n.
Theorem C33_lut ord s ps ids ods : kreachable s -> knpi s = length (kins s) -> 0 < knpi s ->
  (forall n x, 1 < n -> kn s !! n = Some x -> kis_ci s n = Some false -> Forall (fun c => 1 < c) (kch x)) ->
  (forall l, ord l ≡ₚ l) ->
  Forall2 ident_text (lut_pis s ps) ids -> Forall2 ident_text (lut_pos s ps) ods ->
  length ids = knpi s -> length ods = knpo s -> NoDup (ids ++ ods) -> Forall (fun d => ~ lut_reserved d) (ids ++ ods) ->
  exists t m, write_lut ord s ps = Some t /\ read_module t = Some m /\ legal m /\ d_in m = ids /\ d_out m = ods /\
    forall env l, mod_computes m env l <-> kcomputes s env l.
Proof.
  intros R Hin Hne Hk Hord Hids Hods Hil Hol Hnd Hres. pose proof (kreachable_wf s R) as Hw. destruct (kcounts s R) as (Hno & _ & Hro).
  assert (Hk' : forall n x, 1 < n -> kn s !! n = Some x -> isci x = false -> Forall (fun c => 1 < c) (kch x)).
  { intros n x H1 Hx Hc. apply (Hk n x H1 Hx). rewrite (kis_ci_isci s n x Hx). by rewrite Hc. }
  assert (Hpi : forall n x, kn s !! n = Some x -> kvl x <> 3%N).
  { intros n x Hx E. assert (knpi s < length (kins s)); [|lia]. apply Hro. exists x. split; [by eapply elem_of_list_lookup_2|done]. }
  rewrite Forall_forall in Hres.
  assert (Hnw : forall n, wire_name n ∉ ids ++ ods). { intros n Hx. apply (Hres _ Hx). exists n. by left. }
  assert (Hnn : forall n, "name" +:+ sdec n ∉ ids ++ ods). { intros n Hx. apply (Hres _ Hx). exists n. by right. }
  destruct (lut_text_reads s ps ord Hw Hin Hno Hk' Hord Hpi ids ods Hids Hods Hil Hol Hnd Hnw Hnn Hne) as (t & Et & Em).
  exists t, (WriteLutProofs.AST s ps ord ids ods). split; [done|]. split; [done|]. split; [by eapply AST_legal|]. split; [by eapply AST_in|]. split; [by eapply AST_out|].
  intros env l. split; [by eapply AST_sound|by eapply AST_complete].
Qed.
Print Assumptions C33_lut.

Lemma lut_name_nodup (a b : string) (l1 l2 : list nat) (f : string -> nat -> string) :
  (forall x y, f a x = f a y -> x = y) -> (forall x y, f b x = f b y -> x = y) -> (forall x y, f a x <> f b y) ->
  NoDup l1 -> NoDup l2 -> NoDup (map (f a) l1 ++ map (f b) l2).
Proof.
  intros Ha Hb Hab H1 H2. apply NoDup_app. split; [apply NoDup_fmap_2; [|done]; intros x y; apply Ha|].
  split; [|apply NoDup_fmap_2; [|done]; intros x y; apply Hb].
  intros d (x & -> & _)%elem_of_list_fmap (y & E & _)%elem_of_list_fmap. by apply (Hab x y).
Qed.
Lemma Forall2_simple (f : nat -> string) l : (forall n, simple_ident (f n) = true) -> Forall2 ident_text (map f l) (map f l).
Proof. intros H. rewrite Forall2_fmap_l, Forall2_fmap_r. apply Forall_Forall2_diag, Forall_forall. intros n _. by apply simple_text. Qed.

(* without port names *)
Theorem C33_lut_default ord s : kreachable s -> knpi s = length (kins s) -> 0 < knpi s ->
  (forall n x, 1 < n -> kn s !! n = Some x -> kis_ci s n = Some false -> Forall (fun c => 1 < c) (kch x)) ->
  (forall l, ord l ≡ₚ l) ->
  exists t m, write_lut ord s no_ports = Some t /\ read_module t = Some m /\ legal m /\
    length (d_in m) = knpi s /\ length (d_out m) = knpo s /\ forall env l, mod_computes m env l <-> kcomputes s env l.
Proof.
  intros R Hin Hne Hk Hord. pose proof (kreachable_wf s R) as Hw.
  assert (Ekp : kpis s = kins s). { unfold kpis. rewrite Hin. apply firstn_all. }
  destruct (C33_lut ord s no_ports (lut_pis s no_ports) (lut_pos s no_ports)) as (t & m & Et & Em & Hl & Hi & Ho & H); try done.
  - apply Forall2_simple, lut_pi_ident.
  - apply Forall2_simple, lut_po_ident.
  - unfold lut_pis. cbn [in_names no_ports]. rewrite map_length, Ekp. done.
  - unfold lut_pos. cbn [out_names no_ports]. by rewrite map_length, seq_length.
  - unfold lut_pis, lut_pos. cbn [in_names out_names no_ports]. rewrite Ekp.
    apply (lut_name_nodup "_i" "_o" (kins s) (seq 0 (knpo s)) (fun p n => p +:+ sdec n +:+ "_")); [| | |apply (kw_nd s Hw)|apply NoDup_seq].
    + intros x y E. injection E as E. by apply (sdec_inj x y "_" "_").
    + intros x y E. injection E as E. by apply (sdec_inj x y "_" "_").
    + intros x y E. discriminate E.
  - apply Forall_forall. intros d Hd (n & Hn). unfold lut_pis, lut_pos in Hd. cbn [in_names out_names no_ports] in Hd.
    apply elem_of_app in Hd as [Hd|Hd]; apply elem_of_list_fmap in Hd as (y & -> & _); destruct Hn as [Hn|Hn]; discriminate Hn.
  - exists t, m. split; [done|]. split; [done|]. split; [done|]. rewrite Hi, Ho. split; [|split; [|done]].
    + unfold lut_pis. cbn [in_names no_ports]. rewrite map_length, Ekp. done.
    + unfold lut_pos. cbn [out_names no_ports]. by rewrite map_length, seq_length.
Qed.
Print Assumptions C33_lut_default.

(* ---------- C33: AIGs ---------- *)
Theorem C33_verilog s ps ids ods : network s -> is_combinational s = true -> 0 < npi s -> 0 < npo s ->
  (forall n, in_use s n -> is_gate s n -> is_dead s n = Some false) ->
  Forall2 ident_text (v_ins s ps) ids -> Forall2 ident_text (v_outs s ps) ods -> length ids = npi s -> length ods = npo s ->
  NoDup (ids ++ ods) -> Forall (fun d => forall n, d <> gate_name n) (ids ++ ods) ->
  exists t m, write_verilog s ps = Some t /\ read_module t = Some m /\ legal m /\ d_in m = ids /\ d_out m = ods /\
    forall env l, mod_computes m env l <-> computes s env l.
Proof.
  intros W Hcb Hpi Hpo Hlive Hids Hods Hil Hol Hnd Hng. apply write_verilog_spec; try done.
  intros n Hn. rewrite Forall_forall in Hng. by apply (Hng _ Hn n).
Qed.
Print Assumptions C33_verilog.
Theorem C33_verilog_default s : network s -> is_combinational s = true -> 0 < npi s -> 0 < npo s ->
  (forall n, in_use s n -> is_gate s n -> is_dead s n = Some false) ->
  exists t m, write_verilog s no_ports = Some t /\ read_module t = Some m /\ legal m /\
    length (d_in m) = npi s /\ length (d_out m) = npo s /\ forall env l, mod_computes m env l <-> computes s env l.
Proof.
  intros W Hcb Hpi Hpo Hlive.
  destruct (C33_verilog s no_ports (v_ins s no_ports) (v_outs s no_ports)) as (t & m & Et & Em & Hl & Hi & Ho & H); try done.
  - apply Forall2_simple, x_ident.
  - apply Forall2_simple, y_ident.
  - unfold v_ins. cbn [in_names no_ports]. by rewrite map_length, seq_length.
  - unfold v_outs. cbn [out_names no_ports]. by rewrite map_length, seq_length.
  - apply (lut_name_nodup "x" "y" (seq 0 (npi s)) (seq 0 (npo s)) (fun p n => p +:+ sdec n)); [| | |apply NoDup_seq..].
    + intros x y E. injection E as E. by apply sdec_inj0.
    + intros x y E. injection E as E. by apply sdec_inj0.
    + intros x y E. discriminate E.
  - apply Forall_forall. intros d Hd n E. apply elem_of_app in Hd as [Hd|Hd]; apply elem_of_list_fmap in Hd as (y & -> & _); discriminate E.
  - exists t, m. split; [done|]. split; [done|]. split; [done|]. rewrite Hi, Ho. split; [|split; [|done]].
    + unfold v_ins. cbn [in_names no_ports]. by rewrite map_length, seq_length.
    + unfold v_outs. cbn [out_names no_ports]. by rewrite map_length, seq_length.
Qed.
Print Assumptions C33_verilog_default.

(* ---------- why the hypotheses are needed ---------- *)
Definition same (l : list nat) : list nat := l.
Lemma kdemo_reach ops : bool_decide (is_Some (krun ops klut_init)) = true -> kreachable (kdemo ops).
Proof. intros H%bool_decide_eq_true. by apply kdemo_reachable. Qed.
Ltac kreach := apply kdemo_reach; vm_compute; reflexivity.
(* a table that reads a constant node cannot be written *)
Definition kconst : klut := kdemo [KPi; KAnd 2 1; KPo 3].
Theorem C33_constant_fanin_refuted : exists s, kreachable s /\ knpi s = length (kins s) /\ 0 < knpi s /\ write_lut same s no_ports = None.
Proof. exists kconst. split; [kreach|]. split; [vm_compute; reflexivity|]. split; [vm_compute; lia|]. vm_compute. reflexivity. Qed.
Print Assumptions C33_constant_fanin_refuted.
(* without inputs the port list starts with a comma, and the declaration of
   inputs is empty in the AIG writer *)
Definition kclosed : klut := kdemo [KPo 1].
Definition aclosed : aig := build [OpPo (Sig 0 true)].
Theorem C33_no_inputs_refuted : kreachable kclosed /\ reachable aclosed /\
  (exists t, write_lut same kclosed no_ports = Some t /\ read_module t = None) /\
  (exists t, write_verilog aclosed no_ports = Some t /\ read_module t = None).
Proof.
  split; [kreach|]. split; [apply build_reachable; vm_compute; reflexivity|].
  split; eexists; (split; [vm_compute; reflexivity|vm_compute; reflexivity]).
Qed.
Print Assumptions C33_no_inputs_refuted.
(* port names may clash with the names the writers invent *)
Definition kinv1 : klut := kdemo [KPi; KNot 2; KPo 3].
Definition aand2 : aig := build [OpPi; OpPi; OpAnd (Sig 1 false) (Sig 2 true); OpPo (Sig 3 true)].
Theorem C33_clash_refuted : kreachable kinv1 /\ reachable aand2 /\
  (exists t m, write_lut same kinv1 (Ports ["name0"] ["y"]) = Some t /\ read_module t = Some m /\ ~ legal m) /\
  (exists t m, write_verilog aand2 (Ports ["n3"; "b"] ["y"]) = Some t /\ read_module t = Some m /\ ~ legal m).
Proof.
  split; [kreach|]. split; [apply build_reachable; vm_compute; reflexivity|].
  split; eexists _, _; (split; [vm_compute; reflexivity|]); (split; [vm_compute; reflexivity|]); intros [H _ _ _ _ _];
    apply (bool_decide_eq_true_2 (NoDup _)) in H; vm_compute in H; discriminate H.
Qed.
Print Assumptions C33_clash_refuted.
(* too few names are read past their end; names that are not identifiers are
   copied as they are *)
Definition kand2 : klut := kdemo [KPi; KPi; KAnd 2 3; KPo 4].
Theorem C33_names_refuted : kreachable kand2 /\
  write_lut same kand2 (Ports ["a"] []) = None /\
  (exists t, write_lut same kand2 (Ports ["a[0]"; "a[1]"] []) = Some t /\ read_module t = None).
Proof. split; [kreach|]. split; [vm_compute; reflexivity|]. eexists. split; vm_compute; reflexivity. Qed.
Print Assumptions C33_names_refuted.
(* the output of a register is written as a table without inputs *)
Definition kreg : klut := kdemo [KPi; KRo; KPo 3].
Theorem C33_registers_refuted : kreachable kreg /\
  exists t m env l, write_lut same kreg no_ports = Some t /\ read_module t = Some m /\ legal m /\ kcomputes kreg env l /\ ~ mod_computes m env l.
Proof.
  assert (R : kreachable kreg) by kreach. split; [done|].
  destruct (kvaluation_exists kreg (fun _ => true) (kreachable_wf _ R)) as [v V].
  exists (get_some "" (write_lut same kreg no_ports)).
  exists (VMod "top" ["_i2_"; "_o0_"] [IIn ["_i2_"]; IOut ["_o0_"]; IWire ["_w3_"]; ILut 0 "name0" ["_w3_"]; IInit "name0" 1 2; IAssign "_o0_" [(false, OId "_w3_")]]).
  exists (fun _ => true), [true]. split; [vm_compute; reflexivity|]. split; [vm_compute; reflexivity|]. split; [|split].
  - split.
    + apply (bool_decide_eq_true_1 (NoDup _)). vm_compute. reflexivity.
    + reflexivity.
    + split; [apply (bool_decide_eq_true_1 (NoDup _)); vm_compute; reflexivity|]. apply (bool_decide_eq_true_1 (Forall _ _)). vm_compute. reflexivity.
    + apply (bool_decide_eq_true_1 (Forall _ _)). vm_compute. reflexivity.
    + apply (bool_decide_eq_true_1 (Forall _ _)). vm_compute. reflexivity.
    + split; [apply (bool_decide_eq_true_1 (NoDup _)); vm_compute; reflexivity|]. split; [apply (bool_decide_eq_true_1 (Forall _ _)); vm_compute; reflexivity|].
      intros k d l H. cbn [vitems] in H. rewrite !elem_of_cons, elem_of_nil in H. destruct H as [H|[H|[H|[H|[H|[H|H]]]]]]; try discriminate H; [|done].
      injection H as -> -> ->. split; [done|]. exists 2%N. cbn [vitems]. rewrite !elem_of_cons. tauto.
  - exists v. split; [done|]. assert (Ep : kpos kreg = [3]) by (vm_compute; reflexivity). rewrite Ep. cbn. f_equal. symmetry.
    apply (kv_in _ _ _ V 1 3). vm_compute. reflexivity.
  - intros (rho & [Ha Hl] & _ & E). cbn in E. injection E as E.
    specialize (Ha "_o0_" [(false, OId "_w3_")]). cbn [vitems] in Ha. rewrite !elem_of_cons in Ha. specialize (Ha ltac:(tauto)).
    specialize (Hl 0 "name0" ["_w3_"] 1 2%N). cbn [vitems] in Hl. rewrite !elem_of_cons in Hl. specialize (Hl ltac:(tauto) ltac:(tauto)).
    cbn in Hl. apply Forall_cons in Hl as [Hl _]. cbn in Ha. rewrite Hl in Ha. cbn in Ha. congruence.
Qed.
Print Assumptions C33_registers_refuted.

(* three tables over two inputs, outputs of all kinds, an escaped name *)
Definition kwrite : klut := kdemo [KPi; KPi; KAnd 2 3; KXor 4 2; KLut [5; 3; 4] (tt_tab 3 (fun m => Nat.odd (m / 3))); KPo 6; KPo 2; KPo 1; KPo 5].
Definition kports : ports := Ports ["a"; String "\" "b[0] "] ["y0"; "y1"; "y2"; "y3"].
Definition awrite : aig := build [OpPi; OpPi; OpPi; OpAnd (Sig 1 false) (Sig 2 true); OpXor (Sig 4 false) (Sig 3 false);
   OpAnd (Sig 4 true) (Sig 3 false); OpPo (Sig 7 true); OpPo (Sig 0 true); OpPo (Sig 2 false)].
Example C33_nonvacuous :
  (kreachable kwrite /\ knpi kwrite = length (kins kwrite) /\ knpi kwrite = 2 /\
   (forall n x, 1 < n -> kn kwrite !! n = Some x -> kis_ci kwrite n = Some false -> Forall (fun c => 1 < c) (kch x)) /\
   Forall2 ident_text (lut_pis kwrite kports) ["a"; "b[0]"] /\ Forall2 ident_text (lut_pos kwrite kports) ["y0"; "y1"; "y2"; "y3"]) /\
  (reachable awrite /\ network awrite /\ is_combinational awrite = true /\ npi awrite = 3 /\ npo awrite = 3 /\
   (forall n, in_use awrite n -> is_gate awrite n -> is_dead awrite n = Some false) /\
   exists t m, write_verilog awrite no_ports = Some t /\ read_module t = Some m /\ length (d_wire m) = 4).
Proof.
  assert (R : kreachable kwrite) by kreach. assert (Ra : reachable awrite) by (apply build_reachable; vm_compute; reflexivity).
  split.
  - split; [done|]. split; [vm_compute; reflexivity|]. split; [vm_compute; reflexivity|]. split.
    + intros n x H1 Hx Hc. assert (F : forallb (fun x => forallb (fun c => 1 <? c) (kch x)) (kn kwrite) = true) by (vm_compute; reflexivity).
      rewrite forallb_forall in F. specialize (F x). rewrite <- elem_of_list_In in F. specialize (F (elem_of_list_lookup_2 _ _ _ Hx)).
      apply Forall_forall. intros c Hcc. rewrite forallb_forall in F. apply Nat.ltb_lt, F. by apply elem_of_list_In.
    + split.
      * constructor; [by left|]. constructor; [|constructor]. right. split; [reflexivity|]. split; [done|]. repeat constructor.
      * repeat (constructor; [by left|]). constructor.
  - split; [done|]. split; [by apply wf_network, reachable_wf|]. split; [vm_compute; reflexivity|]. split; [vm_compute; reflexivity|]. split; [vm_compute; reflexivity|]. split.
    + intros n _ (a & b & Hk & _ & _). apply lookup_lt_Some in Hk. assert (E : length (ks awrite) = 8) by (vm_compute; reflexivity). rewrite E in Hk.
      do 8 (destruct n as [|n]; [vm_compute; reflexivity|]). lia.
    + eexists _, _. split; [vm_compute; reflexivity|]. split; [vm_compute; reflexivity|]. reflexivity.
Qed.
