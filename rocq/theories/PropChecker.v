(* C56: the mapping checker. *)
From Verif Require Import Base Aig AigSem AigProofs AigApi AigReach Topo Clean NetProofs Tt TtCache Klut KlutSem Isop Cnf CnfProofs PropCnf TtProofs Choice ChoiceCompute
  Mapping Demo NetDemo PropMapping FactorCircuit SopBalanceProofs FlowProofs Checker CheckerProofs CheckerComplete.
Local Open Scope nat_scope.

(* A cell that is accepted has a LUT that gives the value of its root. *)
Theorem C56_cell c rs m solve n : correct_csolver solve -> reachable (cb c) -> is_combinational (cb c) = true ->
  (forall n m, link c n m -> alike (cb c) n m) -> choices c = Some rs ->
  (forall f l, cell_function m n = Some f -> cell_fanin m n = Some l -> tt_wf f /\ nv f = length l) ->
  is_equal_cell c rs m solve n = Some Same -> right_cell (cb c) m n.
Proof.
  intros Hs R C Hl Hc Hwf H. eapply cell_same; try done; [by apply wf_network, reachable_wf|by apply choices_phase].
Qed.
Print Assumptions C56_cell.

(* If the checker answers true without timeouts, every LUT is right. *)
Theorem C56_run fuel c m solve : correct_csolver solve -> (forall cls, solve cls <> Timeout) ->
  reachable (cb c) -> is_combinational (cb c) = true -> alive (cb c) -> (forall n m, link c n m -> alike (cb c) n m) ->
  (forall n f l, root (cb c) m n -> cell_function m n = Some f -> cell_fanin m n = Some l -> tt_wf f /\ nv f = length l) ->
  checker_run fuel c m solve = Some true -> forall n, root (cb c) m n -> right_cell (cb c) m n.
Proof.
  intros Hs Ht R C Ha Hl Hwf H n [Hg Hr]. unfold checker_run in H. apply bind_Some in H as (rs & Hc & H). apply bind_Some in H as (e1 & H1 & H).
  apply bind_Some in H as (e2 & H2 & H). destruct e2; [apply bind_Some in H as (e & _ & H); destruct e; done|]. destruct e1; [done|].
  unfold check_each_luts in H1. apply bind_Some in H1 as (gs & Eg & H1).
  destruct (gates_spec _ (wf_network _ (reachable_wf _ R)) Ha) as (gs' & Eg' & _ & Hgs). rewrite Eg in Eg'. injection Eg' as <-.
  destruct (first_differing_none _ _ H1 n (proj2 (Hgs n) Hg)) as (w & Hw & Hd). cbn beta in Hw. rewrite Hr in Hw. cbn [mbind option_bind] in Hw.
  apply bind_Some in Hw as (u & Hu & [= <-]). eapply C56_cell; try done; [intros f l; by apply Hwf|]. destruct u; try done.
  exfalso. unfold is_equal_cell in Hu. apply bind_Some in Hu as ([? k] & _ & [= Hu]). specialize (Ht (k_cls k)). by destruct (solve (k_cls k)).
Qed.
Print Assumptions C56_run.

(* Hence collapsing the mapping keeps the functions of the network. *)
Theorem C56_collapse fuel c m solve : correct_csolver solve -> (forall cls, solve cls <> Timeout) ->
  reachable (cb c) -> is_combinational (cb c) = true -> alive (cb c) -> (forall n m, link c n m -> alike (cb c) n m) ->
  size (cb c) <= length (mm m) -> has_mapping m = true -> (N.of_nat (12 + 2 * size (cb c)) <= 2 ^ 31)%N ->
  (forall f, f ∈ pos (cb c) -> provided (cb c) m (sidx f)) ->
  (forall n, root (cb c) m n -> exists l f, cell_fanin m n = Some l /\ cell_function m n = Some f /\ tt_wf f /\ nv f = length l /\
     forall e, e ∈ l -> provided (cb c) m e /\ e < n) ->
  checker_run fuel c m solve = Some true ->
  exists d, choice_to_klut (cb c) m = Some (Some d) /\ kreachable d /\ forall env l, computes (cb c) env l <-> kcomputes d env l.
Proof.
  intros Hs Ht R C Ha Hl Hlen Hm Hsz Hpo Hcell H.
  destruct (C19_choice_to_klut (cb c) m) as (d & E & Rd & _ & _ & _ & _ & Hd); try done.
  - by apply wf_network, reachable_wf.
  - split; [lia|done|]. intros n Hn. destruct (Hcell n Hn) as (l & f & El & Ef & Hwf & Hnv & Hp). exists l, f. do 5 (split; [done|]).
    destruct (C56_run fuel c m solve Hs Ht R C Ha Hl) with (n := n) as (l' & f' & El' & Ef' & Hv); try done.
    + intros n' f' l' Hn' Ef' El'. destruct (Hcell n' Hn') as (l2 & f2 & E2 & F2 & W2 & N2 & _). rewrite El' in E2. rewrite Ef' in F2. injection E2 as ->. injection F2 as ->. done.
    + rewrite El in El'. rewrite Ef in Ef'. injection El' as <-. injection Ef' as <-. exact Hv.
  - exists d. done.
Qed.
Print Assumptions C56_collapse.

(* There are no false alarms: a cell whose leaves are a cut of its root and whose LUT
   is the function of the gates in between is not rejected, if fanins have smaller
   numbers. *)
Theorem C56_no_alarm c rs m solve n w : correct_csolver solve ->
  (forall n a b, ks (cb c) !! n = Some (a, b) -> is_gate (cb c) n -> sidx a < n /\ sidx b < n) ->
  exact_cell (cb c) m n -> is_equal_cell c rs m solve n = Some w -> w <> Differs.
Proof.
  intros [Hs _] Hord He H. unfold is_equal_cell in H. apply bind_Some in H as ([u k] & Ek & [= <-]).
  pose proof (cell_unsat c rs Hord m n _ (recycled_next (cb c)) He) as Hm. unfold may in Hm. rewrite Ek in Hm.
  unfold answer_of. destruct (solve (k_cls k)) as [a| |] eqn:E; try done. intros _. by apply (Hm _ (Hs _ a E)).
Qed.
Print Assumptions C56_no_alarm.
Theorem C56_accepts fuel c m solve b : correct_csolver solve -> reachable (cb c) -> is_combinational (cb c) = true -> alive (cb c) ->
  (forall n a b, ks (cb c) !! n = Some (a, b) -> is_gate (cb c) n -> sidx a < n /\ sidx b < n) ->
  (forall n, root (cb c) m n -> exact_cell (cb c) m n) ->
  checker_run fuel c m solve = Some b -> b = true.
Proof.
  intros Hs R C Ha Hord Hex H. pose proof (wf_network _ (reachable_wf _ R)) as W. unfold checker_run in H. apply bind_Some in H as (rs & Hc & H).
  apply bind_Some in H as (e1 & H1 & H). apply bind_Some in H as (e2 & H2 & H).
  assert (e2 = None) as ->.
  { apply (first_differing_always _ _ _) in H2; [done|]. intros n _ E. apply bind_Some in E as (pi & Hpi & E).
    destruct (decide (pi = true \/ n = 0)) as [|Hn]; [done|]. destruct pi; [exfalso; auto|]. apply bind_Some in E as (v & Ev & [= ->]).
    unfold is_equal_root in Ev. apply bind_Some in Ev as (r & Er & Ev). destruct r; [|done]. apply bind_Some in Ev as ([u k] & Ek & Ev).
    assert (Hm : may True (let! _ := mapM prepare (pis (cb c)) in root_loop fuel c rs m [n]) (recycled (cb c)) (fun _ k => forall x, ~ cnf_sat x (k_cls k))).
    { apply may_bnd. eapply may_mono; [apply prepares_in, recycled_next|]. cbn beta. intros vs k1 [E1 _].
      apply (root_unsat c rs Hord); [by eapply kin_next|done|auto|]. apply Hex. split; [|done]. apply nonpi_gate; auto. }
    unfold may in Hm. rewrite Ek in Hm. injection Ev as Ev. unfold answer_of in Ev. destruct (solve (k_cls k)) as [a| |] eqn:Es; try done.
    by apply (Hm _ (proj1 Hs _ a Es)). }
  assert (e1 = None) as ->; [|by injection H as <-].
  unfold check_each_luts in H1. apply bind_Some in H1 as (gs & Eg & H1).
  apply (first_differing_always _ _ _) in H1; [done|]. intros n Hn E. apply bind_Some in E as (r & Er & E). destruct r; [|done].
  apply bind_Some in E as (w & Ew & [= ->]). eapply C56_no_alarm; try done. apply Hex. split; [|done].
  destruct (gates_spec _ W Ha) as (gs' & Eg' & _ & Hgs). rewrite Eg in Eg'. injection Eg' as <-. by apply Hgs.
Qed.
Print Assumptions C56_accepts.

(* ---- a solver, examples and counterexamples ---- *)
Definition cbrute : csolver := fun cls =>
  match List.find (fun m => cls_b (fun i => nth i m false) cls) (bools (nvars cls)) with Some m => Success m | None => Failure end.
Lemma cbrute_correct : correct_csolver cbrute /\ forall cls, cbrute cls <> Timeout.
Proof.
  unfold cbrute. split; [split|]; intros cls; [intros m| |]; destruct (List.find _ _) as [m'|] eqn:E; try done.
  - intros [= <-]. apply List.find_some in E as [_ E]. by apply cls_b_spec.
  - intros _ x Hx. pose proof (List.find_none _ _ E (map x (seq 0 (nvars cls)))) as H.
    assert (Hin : List.In (map x (seq 0 (nvars cls))) (bools (nvars cls))) by (apply elem_of_list_In, bools_elem; by rewrite map_length, seq_length).
    specialize (H Hin). apply not_true_iff_false in H. apply H. apply cls_b_spec. eapply cnf_sat_ext; [|exact Hx]. intros i Hi. cbn beta.
    rewrite (nth_indep _ false (x 0)) by (by rewrite map_length, seq_length). rewrite map_nth, seq_nth by done. done.
Qed.

(* 4 = x & y, 5 = 4 & z; the LUT of 4 is right, the LUT of 5 is a disjunction *)
Definition or2 : tt := tt_word 2 0xE.
Definition ck_net : aig := build [OpPi; OpPi; OpPi; OpAnd (Sig 1 false) (Sig 2 false); OpAnd (Sig 3 false) (Sig 4 false); OpPo (Sig 5 false)].
Definition ck_map (f : tt) : mview := get_some (mv_init 0) (mrun 6 [MAdd 4 [1; 2]; MSet 4 and2; MAdd 5 [3; 4]; MSet 5 f] (mv_init 6)).
Lemma ck_ok : reachable ck_net /\ is_combinational ck_net = true /\ alive ck_net /\ root ck_net (ck_map or2) 5 /\ pos ck_net = [Sig 5 false].
Proof.
  assert (R : reachable ck_net) by (apply build_reachable; vm_compute; reflexivity).
  split; [exact R|]. split; [vm_compute; reflexivity|]. split; [apply small_alive; [exact R|vm_compute; reflexivity]|].
  split; [|vm_compute; reflexivity]. split; [exists (Sig 3 false), (Sig 4 false); vm_compute; done|vm_compute; reflexivity].
Qed.
Lemma ck_wrong : ~ right_cell ck_net (ck_map or2) 5.
Proof.
  intros (l & f & El & Ef & H).
  assert (E1 : cell_fanin (ck_map or2) 5 = Some [3; 4]) by (vm_compute; reflexivity). assert (E2 : cell_function (ck_map or2) 5 = Some or2) by (vm_compute; reflexivity).
  rewrite E1 in El. rewrite E2 in Ef. injection El as <-. injection Ef as <-. clear E1 E2.
  pose proof (H (fun k => bool_decide (k = 2)) (ev ck_net (fun k => bool_decide (k = 2)))) as H'. clear H.
  specialize (H' (ev_valuation _ _ (reachable_wf _ (proj1 ck_ok)))). revert H'. vm_compute. congruence.
Qed.

(* The check of an output asks for all the LUTs below it to be wrong at once.  One
   right LUT is enough for it to pass: here the LUT of the output is wrong, and no
   correct solver makes the check fail. *)
Definition root_clauses (c : cnet) (rs : list (nat * nat)) (m : mview) (n : nat) : option (list (list N)) :=
  '(_, k) ← (let! _ := mapM prepare (pis (cb c)) in root_loop 20 c rs m [n]) (recycled (cb c)); Some (k_cls k).
Lemma ck_unsat : match root_clauses (choice_of_aig ck_net) [] (ck_map or2) 5 with
  | Some cls => match cbrute cls with Failure => true | _ => false end | None => false end = true.
Proof. vm_compute. reflexivity. Qed.
Lemma root_passes c rs m n solve : correct_csolver solve -> is_cell_root m n = Some true ->
  match root_clauses c rs m n with Some cls => match cbrute cls with Failure => true | _ => false end | None => false end = true ->
  exists w, is_equal_root 20 c rs m solve n = Some w /\ w <> Differs.
Proof.
  intros [Hs _] Hr H. unfold is_equal_root. rewrite Hr. cbn [mbind option_bind]. unfold root_clauses in H.
  destruct ((let! _ := mapM prepare (pis (cb c)) in root_loop 20 c rs m [n]) (recycled (cb c))) as [[u k]|]; [|discriminate H]. cbn [mbind option_bind] in *.
  eexists. split; [reflexivity|]. destruct (cbrute (k_cls k)) eqn:Eb; try discriminate H. specialize (Hs (k_cls k)). unfold answer_of.
  destruct (solve (k_cls k)) as [a| |]; try discriminate. intros _. exact (proj2 (proj1 cbrute_correct) _ Eb _ (Hs a eq_refl)).
Qed.
Theorem C56_output_refuted : exists c m n, reachable (cb c) /\ is_combinational (cb c) = true /\ alive (cb c) /\ choices c = Some [] /\
  pos (cb c) = [Sig n false] /\ root (cb c) m n /\ ~ right_cell (cb c) m n /\
  forall solve, correct_csolver solve -> check_each_po 20 c [] m solve = Some None.
Proof.
  destruct ck_ok as (R & C & A & Hr & Hp). exists (choice_of_aig ck_net), (ck_map or2), 5.
  pose proof ck_unsat as Hu. pose proof ck_wrong as Hw.
  assert (Hc : choices (choice_of_aig ck_net) = Some []) by (vm_compute; reflexivity).
  assert (Hpi : is_pi ck_net 5 = Some false) by (vm_compute; reflexivity).
  revert R C A Hr Hp Hu Hw Hc Hpi. generalize ck_net (ck_map or2). intros s m R C A Hr Hp Hu Hw Hc Hpi.
  do 7 (split; [assumption|]). intros solve Hs. unfold check_each_po. change (cb (choice_of_aig s)) with s. rewrite Hp. cbn [map first_differing sidx].
  rewrite Hpi. cbn [mbind option_bind]. rewrite decide_False by (intros [H|H]; discriminate H).
  destruct (root_passes (choice_of_aig s) [] m 5 solve Hs (proj2 Hr) Hu) as (w & Ew & Hd). rewrite Ew. cbn [mbind option_bind]. destruct w; done.
Qed.
Print Assumptions C56_output_refuted.

(* Queries that time out count as passed: with a solver that always gives up, the
   checker accepts the same wrong mapping. *)
Theorem C56_timeout_refuted : exists c m n solve, reachable (cb c) /\ is_combinational (cb c) = true /\ alive (cb c) /\ root (cb c) m n /\ ~ right_cell (cb c) m n /\
  correct_csolver solve /\ checker_run 20 c m solve = Some true.
Proof.
  destruct ck_ok as (R & C & A & Hr & _). exists (choice_of_aig ck_net), (ck_map or2), 5, (fun _ => Timeout).
  do 4 (split; [assumption|]). split; [exact ck_wrong|]. split; [split; done|]. vm_compute. reflexivity.
Qed.
Print Assumptions C56_timeout_refuted.

(* ---- nonvacuity: the right mapping is accepted, the wrong one is rejected ---- *)
Example C56_nonvacuous : correct_csolver cbrute /\ (forall cls, cbrute cls <> Timeout) /\ reachable ck_net /\ is_combinational ck_net = true /\ alive ck_net /\
  (forall n m, link (choice_of_aig ck_net) n m -> alike ck_net n m) /\ size ck_net <= length (mm (ck_map and2)) /\ has_mapping (ck_map and2) = true /\
  checker_run 20 (choice_of_aig ck_net) (ck_map and2) cbrute = Some true /\ checker_run 20 (choice_of_aig ck_net) (ck_map or2) cbrute = Some false.
Proof.
  split; [apply cbrute_correct|]. split; [apply cbrute_correct|]. destruct ck_ok as (R & C & A & _). do 3 (split; [assumption|]).
  split.
  { intros n m H. unfold link in H. cbn in H. unfold init_equivs in H. apply elem_of_list_lookup_2, elem_of_list_In, repeat_spec in H. discriminate H. }
  split; [vm_compute; lia|]. split; [vm_compute; reflexivity|]. split; vm_compute; reflexivity.
Qed.
Lemma ck_exact s m : ks s = [(Sig 0 false, Sig 0 false); (Sig 0 false, Sig 0 false); (Sig 0 true, Sig 0 true); (Sig 1 false, Sig 1 false);
    (Sig 1 false, Sig 2 false); (Sig 3 false, Sig 4 false)] ->
  cell_fanin m 4 = Some [1; 2] -> cell_fanin m 5 = Some [3; 4] -> cell_function m 4 = Some and2 -> cell_function m 5 = Some and2 ->
  (forall n a b, ks s !! n = Some (a, b) -> is_gate s n -> sidx a < n /\ sidx b < n) /\ forall n, root s m n -> exact_cell s m n.
Proof.
  intros K F4 F5 T4 T5.
  assert (W2 : tt_wf and2 /\ nv and2 = 2) by (split; [vm_compute; repeat constructor|reflexivity]).
  assert (T : forall (v : nat -> bool) (i j : nat), v i && v j = tt_eval and2 (fun k => match [i; j] !! k with Some c => v c | None => false end)).
  { intros v i j. transitivity (tt_eval and2 (fun k => match [v i; v j] !! k with Some c => c | None => false end)); [|apply eval_ext; intros [|[|k]] _; reflexivity].
    destruct (v i), (v j); vm_compute; reflexivity. }
  assert (E : forall n i j, ks s !! n = Some (Sig i false, Sig j false) -> n <> 0 -> i <> j -> n <> i -> n <> j -> cell_fanin m n = Some [i; j] -> cell_function m n = Some and2 -> exact_cell s m n).
  { intros n i j Hk H0 Hij Hni Hnj Hf Ht. exists [i; j], and2. split; [exact Hf|]. split; [exact Ht|]. split; [apply W2|]. split; [apply W2|].
    assert (Hnl : n ∉ [i; j]) by (rewrite !elem_of_cons, elem_of_nil; tauto).
    assert (I : forall n', inside s [i; j] n n' -> n' = n \/ n' ∈ [i; j]).
    { intros n' Hn. induction Hn as [|n' a b _ [->|IH] Hnl' Hk'|n' a b _ [->|IH] Hnl' Hk']; [left; reflexivity| |contradiction| |contradiction];
        rewrite Hk in Hk'; injection Hk' as <- <-; cbn; right; rewrite !elem_of_cons; auto. }
    split.
    - intros n' Hn' Hl. destruct (I n' Hn') as [->|]; [|contradiction]. exists (Sig i false), (Sig j false). split; [exact Hk|]. split; [exact H0|]. intros [= ?]. contradiction.
    - intros v Hv. rewrite (Hv n _ _ (inside_root _ _ _) Hnl Hk). unfold sval. cbn [sidx scompl]. rewrite !xorb_false_r. apply T. }
  split.
  - intros n a b Hk (a' & b' & Hk' & H0 & Hab). rewrite Hk in Hk'. injection Hk' as <- <-. rewrite K in Hk.
    do 6 (destruct n as [|n]; [cbn in Hk; injection Hk as <- <-; try (exfalso; congruence); cbn; lia|]). discriminate Hk.
  - intros n [(a & b & Hk & H0 & Hab) Hr]. rewrite K in Hk.
    do 4 (destruct n as [|n]; [cbn in Hk; injection Hk as <- <-; exfalso; congruence|]). destruct n as [|[|n]]; [| |discriminate Hk].
    + apply (E 4 1 2); try lia; try assumption. rewrite K. reflexivity.
    + apply (E 5 3 4); try lia; try assumption. rewrite K. reflexivity.
Qed.
Example C56_accepts_nonvacuous : (forall n a b, ks ck_net !! n = Some (a, b) -> is_gate ck_net n -> sidx a < n /\ sidx b < n) /\
  forall n, root ck_net (ck_map and2) n -> exact_cell ck_net (ck_map and2) n.
Proof. apply ck_exact; vm_compute; reflexivity. Qed.
