(* C55: the choice flow. *)
From Verif Require Import Base Aig AigSem AigProofs AigApi AigReach Topo Clean NetProofs CleanProofs Tt TtCache Cut CutEnum CutEnumProofs Cnf Sim Demo NetDemo PropNet
  Subst SubstProofs PropSubst RefDeref PropRefDeref Rewrite PropRewrite NodeRewriting NodeRewritingProofs PropNodeRewriting PropCutEnum RewriteSelect RewriteSelectProofs PropRewriteSelect
  Balance PropBalance Choice ChoiceSat ChoiceCompute ChoiceComputeProofs PropChoiceCompute ChoiceClasses PropChoiceClasses ChoiceMiter
  Klut KlutSem Mapping ConvertProofs PropMapping CnfProofs PropCnf KlutMapping PropKlutMapping Flow FlowProofs FlowSynthProofs.
Local Open Scope nat_scope.

(* A rewriting call whose replacements do not get in each other's way returns a
   network with the functions of the given one, and leaves such a network in the
   storage of the given one as well. *)
Theorem C55_rewriting {D} (E : pass_env D) b vs ps s x :
  0 < pe_nb E -> reachable s -> is_combinational s = true -> 0 < pe_max E -> small (pe_max E) s ->
  cut_enumeration true (pe_lt E) (pe_upd E) (pe_d0 E) (pe_cap E) (pe_max E) s (pe_cps E) = Some x ->
  0 < b -> (N.of_nat (length vs) < 2 ^ 26)%N -> db_valid vs -> generate_db b vs = Some (pe_db E) ->
  harmless_call E ps s ->
  exists t r, run_pass E (PRewrite ps) s = Some (t, r) /\ network t /\ is_combinational t = true /\ npi t = npi s /\ npo t = npo s /\
    same_functions s t /\ reachable r /\ is_combinational r = true /\ npi r = npi s /\ npo r = npo s /\ same_functions s r.
Proof.
  intros Hnb R C Hm Hs Hx Hb Hl Hv Hd Hh.
  destruct (rewrite_in_harmless E Hnb b vs ps s x R C Hm Hs Hx Hb Hl Hv Hd Hh) as (t & r & E1 & H1 & H2 & H3 & H4 & H5 & (H6 & H7 & _) & H8 & H9 & H10).
  exists t, r. done.
Qed.
Print Assumptions C55_rewriting.

(* ---- the flow ---- *)
Lemma synthesis_inv {D} (E : pass_env D) rnd both cps solve nw o y : choice_synthesis E rnd both cps solve nw o = Some y ->
  run_script E dch_compress o = Some (y_calls1 y) /\
  run_script E dch_compress2 (script_result o (y_calls1 y)) = Some (y_calls2 y) /\
  y_compress2 y = script_result (script_result o (y_calls1 y)) (y_calls2 y) /\
  y_original y = script_stored o (y_calls1 y) /\
  merge [y_compress2 y; y_compress y; y_original y] [Entry 0 0; Entry 1 1; Entry 2 2] (aig_init_n (pe_nb E)) = Some (y_merged y) /\
  ccompute_choice rnd both cps solve (y_merged y) nw (pe_nb E) = Some (y_choice y).
Proof.
  unfold choice_synthesis. intros H. apply bind_Some in H as (cs1 & E1 & H). apply bind_Some in H as (cs2 & E2 & H).
  apply bind_Some in H as (m & Em & H). apply bind_Some in H as (w & Ew & [= <-]). done.
Qed.
Lemma synthesis_made {D} (E : pass_env D) rnd both cps solve nw o y : 0 < pe_nb E -> choice_synthesis E rnd both cps solve nw o = Some y ->
  made (script_result o (y_calls1 y)) /\ made (y_compress2 y).
Proof.
  intros Hnb (E1 & E2 & -> & _)%synthesis_inv. split; by eapply script_made.
Qed.

Section flow.
Context {D : Type} (E : pass_env D) (rnd : nat -> N) (both : bool) (cps : sparams) (solve : oracle) (nw : nat) (o : aig) (y : synth).
Context (A : fops) (cap max : nat) (stale : list (cut (gdata A)) -> list (cut (gdata A))) (p : kparams) (k : klut).
Hypothesis Hnb : 0 < pe_nb E.
Hypothesis Hy : choice_synthesis E rnd both cps solve nw o = Some y.
Hypothesis Hin : 0 < npi (y_compress2 y).
Hypothesis Halive : alive (y_merged y).
Hypothesis Hsolve : correct_oracle solve.
Hypothesis Hstale : forall l, stale l ≡ₚ l.
Hypothesis Hmax : 0 < max.
Hypothesis HB : (N.of_nat (8 + size (cb (y_choice y)) * (8 + 2 * cut_size (kcut p) + 6 * (max * max))) <= 2 ^ 31)%N.
Hypothesis HB2 : (N.of_nat (2 * size (cb (y_choice y)) + npo (cb (y_choice y))) < 2 ^ 31)%N.
Hypothesis Hg : exists f, f ∈ pos (cb (y_choice y)) /\ is_gate (cb (y_choice y)) (sidx f).
Hypothesis Hk : mapper A cap max stale p y = Some k.

Lemma flow_mapped : kreachable k /\ (forall env l, computes (y_compress2 y) env l <-> kcomputes k env l) /\
  knpi k = npi (y_compress2 y) /\ length (kins k) = knpi k /\ length (kpos k) = npo (y_compress2 y) /\
  npi (y_original y) = npi (y_compress2 y) /\ npo (y_original y) = npo (y_compress2 y).
Proof using Hnb Hy Hin Halive Hsolve Hstale Hmax HB HB2 Hg Hk.
  destruct (synthesis_inv _ _ _ _ _ _ _ _ Hy) as (_ & _ & _ & _ & Em & Ec). destruct (synthesis_made _ _ _ _ _ _ _ _ Hnb Hy) as [_ M2].
  destruct (merge_same _ _ _ _ _ Hnb M2 Hin Em Halive) as (Sw & Ct & Hpi & Hpo & Hs & _ & _ & Hpo1 & Hpo2).
  pose proof Hk as Hk'. unfold mapper in Hk'. apply bind_Some in Hk' as (m & Ekm & H). apply bind_Some in H as (k' & Ek & Hk''). cbn in Hk''. subst k'.
  destruct (C51_with_choices rnd both cps solve nw (pe_nb E) (y_merged y) (y_choice y) A cap max stale p m) as (d & Ed & Rd & Hd); try done.
  destruct (C50_sound rnd both cps solve nw (pe_nb E) (y_merged y) (y_choice y) Sw Hsolve Hnb Ec) as (_ & R & Hc & [Hsi Hsame] & Hl).
  destruct (C51_equivalent A (y_choice y) cap max stale p m 1 Hstale Hmax ltac:(lia) R Hc Hl HB HB2 Ekm Hg) as (d1 & d' & Ed1 & Rd1 & Hp1 & Hp2 & _).
  destruct (C51_cover A (y_choice y) cap max stale p m Hstale Hmax R Hl HB Ekm) as (Hcov & _ & Hmap).
  destruct Hg as (f & Hf & Hgf). specialize (Hmap f Hf Hgf).
  destruct (C19_choice_to_klut (cb (y_choice y)) m) as (d2 & Ed2 & Rd2 & Hp & Hki & Hpo' & Hko & _); try done.
  - by apply wf_network, reachable_wf.
  - apply small_alive; [done|]. destruct (combinational _ Hc) as [_ Hco]. lia.
  - pose proof (net_size (cb (y_choice y)) (wf_network _ (reachable_wf _ R))).
    assert (size (cb (y_choice y)) * 8 <= size (cb (y_choice y)) * (8 + 2 * cut_size (kcut p) + 6 * (max * max))) by (apply Nat.mul_le_mono_l; lia). lia.
  - rewrite Ed in Ek. injection Ek as ->. rewrite Ed in Ed2. injection Ed2 as <-.
    destruct (combinational _ Hc) as [Hci Hco]. destruct (combinational _ Ct) as [Hti Hto].
    assert (Hpin : npi (cb (y_choice y)) = npi (y_merged y)) by congruence.
    assert (Hpon : npo (cb (y_choice y)) = npo (y_merged y)).
    { destruct (net_valuation (y_merged y) (fun _ => false) (sp_net _ Sw)) as [v V].
      destruct (net_valuation (cb (y_choice y)) (fun _ => false) (wf_network _ (reachable_wf _ R))) as [w V'].
      pose proof (f_equal length (Hsame _ _ _ V V')) as Hlen. rewrite !map_length in Hlen. congruence. }
    split; [done|]. split; [intros env l; rewrite <- (Hd env l); apply Hs|]. unfold kpos. rewrite take_length. split_and!; congruence || lia.
Qed.

(* Whatever the passes did, the mapped network computes what the last script
   returned: merging and choices do not change it. *)
Theorem C55_mapped : kreachable k /\ forall env l, computes (y_compress2 y) env l <-> kcomputes k env l.
Proof using Hnb Hy Hin Halive Hsolve Hstale Hmax HB HB2 Hg Hk. destruct flow_mapped as (H1 & H2 & _). done. Qed.

(* If the rewriting calls kept the functions, so does the flow. *)
Theorem C55_flow : reachable o -> is_combinational o = true -> sorts_by_level (pe_srt E) ->
  (forall c ps, c ∈ y_calls1 y ++ y_calls2 y -> c_pass c = PRewrite ps -> keeps c) ->
  forall env l, computes o env l <-> kcomputes k env l.
Proof using Hnb Hy Hin Halive Hsolve Hstale Hmax HB HB2 Hg Hk.
  intros R C Hsrt Hc env l. destruct flow_mapped as (_ & H & _). rewrite <- H.
  destruct (synthesis_inv _ _ _ _ _ _ _ _ Hy) as (E1 & E2 & -> & _). destruct (synthesis_made _ _ _ _ _ _ _ _ Hnb Hy) as [(R1 & C1 & _) _].
  apply (same_trans _ _ _ (script_keeps E Hnb _ _ _ Hsrt R C E1 ltac:(intros c ps Hc1; apply Hc; rewrite elem_of_app; by left))
    (script_keeps E Hnb _ _ _ Hsrt R1 C1 E2 ltac:(intros c ps Hc1; apply Hc; rewrite elem_of_app; by right))).
Qed.

(* The verdict of the closing check is right about the network that is stored as
   the original one by then. *)
Theorem C55_check sat b : correct_solver sat -> network (y_original y) -> is_combinational (y_original y) = true ->
  (forall a d, convert_klut_to_aig (pe_nb E) k = Some a -> miter (pe_nb E) a (y_original y) = Some (Some d) ->
     (N.of_nat (2 * size d + length (outs d)) < 2 ^ 31)%N) ->
  flow_check E sat y k = Some b ->
  b = true <-> forall env l, computes (y_original y) env l <-> kcomputes k env l.
Proof using Hnb Hy Hin Halive Hsolve Hstale Hmax HB HB2 Hg Hk.
  intros Hsat W C Hsz Hf. destruct flow_mapped as (Rk & _ & Hpi & Hki & Hpo & Ho1 & Ho2).
  destruct (convert_klut_spec (pe_nb E) k Hnb Rk ltac:(congruence)) as (a & Ea & Ra & Hp' & Hi' & Hpo' & Ho' & Ha).
  pose proof (wf_network _ (reachable_wf _ Ra)) as Wa.
  unfold flow_check in Hf. rewrite Ea in Hf. cbn [mbind option_bind] in Hf. unfold debug_by_miter in Hf.
  assert (Ca : is_combinational a = true) by (apply bool_decide_eq_true_2; lia).
  destruct (C28_miter (pe_nb E) a (y_original y) Hnb Wa W Ca C) as [_ Heq].
  destruct (Heq ltac:(congruence) ltac:(congruence)) as (d & Ed & _). rewrite Ed in Hf. cbn [mbind option_bind] in Hf.
  apply bind_Some in Hf as ([r cex] & Er & Hr). cbn in Hr. subst r.
  destruct (C30_miter sat (pe_nb E) a (y_original y) d (Some b) cex Hsat Hnb Wa W Ca C Ed (Hsz a d Ea Ed) Er) as (V1 & V2 & _).
  split.
  - intros ->. specialize (V1 eq_refl). intros env l. rewrite (Ha env l).
    destruct (net_valuation a env Wa) as [v V]. destruct (net_valuation (y_original y) env W) as [w V'].
    assert (Hv : computes a env (map (sval v) (pos a))) by (by exists v).
    assert (Hw : computes (y_original y) env (map (sval w) (pos (y_original y)))) by (by exists w).
    pose proof (V1 env _ _ Hv Hw) as Hvw. split; intros Hl.
    + rewrite (computes_unique _ _ _ _ W Hl Hw), <- Hvw. done.
    + rewrite (computes_unique _ _ _ _ Wa Hl Hv), Hvw. done.
  - intros H. destruct b; [done|]. destruct (V2 eq_refl) as [_ H2]. exfalso.
    set (env := fun k => nth k cex false) in H2. destruct (net_valuation a env Wa) as [v V].
    assert (Hv : computes a env (map (sval v) (pos a))) by (by exists v).
    exact (H2 _ _ Hv (proj2 (H _ _) (proj2 (Ha _ _) Hv)) eq_refl).
Qed.

(* If the replacements of the first rewriting do not get in each other's way, the
   verdict is about the given network, whatever the later passes did. *)
Theorem C55_verified sat b nb vs x : correct_solver sat ->
  reachable o -> is_combinational o = true -> 0 < pe_max E -> small (pe_max E) o ->
  cut_enumeration true (pe_lt E) (pe_upd E) (pe_d0 E) (pe_cap E) (pe_max E) o (pe_cps E) = Some x ->
  0 < nb -> (N.of_nat (length vs) < 2 ^ 26)%N -> db_valid vs -> generate_db nb vs = Some (pe_db E) ->
  harmless_call E (RwPs false true) o ->
  (forall a d, convert_klut_to_aig (pe_nb E) k = Some a -> miter (pe_nb E) a (y_original y) = Some (Some d) ->
     (N.of_nat (2 * size d + length (outs d)) < 2 ^ 31)%N) ->
  flow_check E sat y k = Some b ->
  b = true <-> forall env l, computes o env l <-> kcomputes k env l.
Proof using Hnb Hy Hin Halive Hsolve Hstale Hmax HB HB2 Hg Hk.
  intros Hsat R C Hm Hs Hx Hb Hl Hv Hd Hh Hsz Hf.
  destruct (rewrite_in_harmless E Hnb nb vs (RwPs false true) o x R C Hm Hs Hx Hb Hl Hv Hd Hh) as (t & r & Et & Wt & Ct & _ & _ & St & _).
  assert (Ho : y_original y = t).
  { destruct (synthesis_inv _ _ _ _ _ _ _ _ Hy) as (E1 & _ & _ & -> & _). unfold dch_compress in E1. cbn [run_script run_pass] in E1.
    rewrite Et in E1. cbn [mbind option_bind] in E1. apply bind_Some in E1 as (cs & _ & [= <-]). done. }
  pose proof (C55_check sat b Hsat) as H. rewrite Ho in H, Hsz. rewrite (H Wt Ct Hsz Hf). split; intros H' env l; rewrite <- H'; [|symmetry]; apply St.
Qed.
End flow.
Print Assumptions C55_mapped.
Print Assumptions C55_flow.
Print Assumptions C55_check.
Print Assumptions C55_verified.

(* ---- examples and counterexamples ---- *)
Definition flow_env (d : aig * NodeRewriting.classes) : pass_env unit := PassEnv unit size_lt keep_data Datatypes.tt 7 12 rw_cps d level_sort 1.

(* The check compares with the network that rewriting has worked on, not with the
   given one.  On the network of C52 the first rewriting of dch_compress turns the
   second output into constant false; the whole flow goes through, and the check
   reports success with every solver. *)
Definition flow_run {D} (E : pass_env D) (o : aig) : option (synth * klut) :=
  y ← choice_synthesis E apart_rnd true apart_ps (searcher 20) 1 o; k ← mapper qops 7 12 id (kpar 6 10) y; Some (y, k).
Definition twice_shape (x : option (synth * klut)) : bool :=
  match x with
  | Some (y, k) => bool_decide (kpos k = [6; 0]) &&
      match convert_klut_to_aig 1 k with
      | Some a => match miter 1 a (y_original y) with
        | Some (Some u) => match node_literals u None with
          | Some lits => match generate_cnf u lits with
            | Some (cls, os) => match os !! 0 with
              | Some f => bool_decide (lit_var f < nvars cls) && bool_decide (npo u = 1) && match brute cls f with Failure => true | _ => false end
              | None => false end
            | None => false end
          | None => false end
        | _ => false end
      | _ => false end
  | None => false end.
Definition twice_db (o : aig) (g : option (aig * NodeRewriting.classes)) : bool := match g with Some d => twice_shape (flow_run (flow_env d) o) | None => false end.
Lemma twice_run : twice_db rw_twice (generate_db 1 and4_db) = true.
Proof. vm_compute. reflexivity. Qed.
Lemma twice_verdict {D} (E : pass_env D) (x : option (synth * klut)) : pe_nb E = 1 -> twice_shape x = true -> exists y k, x = Some (y, k) /\ kpos k = [6; 0] /\
  forall sat, correct_solver sat -> complete_solver sat -> flow_check E sat y k = Some true.
Proof.
  unfold twice_shape. intros Hnb H. destruct x as [[y k]|]; [|discriminate H]. exists y, k. split; [reflexivity|].
  rewrite !andb_true_iff, !bool_decide_eq_true in H. destruct H as [Hpo Hm]. split; [exact Hpo|].
  clear Hpo. intros sat H1 H2. unfold flow_check, debug_by_miter. rewrite Hnb. destruct (convert_klut_to_aig 1 k) as [a|]; [|discriminate Hm]. cbn [mbind option_bind].
  destruct (miter 1 a (y_original y)) as [[u|]|]; [|discriminate Hm..]. cbn [mbind option_bind].
  unfold equivalence_checking. destruct (node_literals u None) as [lits|]; [|discriminate Hm]. destruct (generate_cnf u lits) as [[cls os]|] eqn:Ecnf; [|discriminate Hm].
  cbn [mbind option_bind]. rewrite Ecnf. cbn [mbind option_bind]. destruct (os !! 0) as [f|]; [|discriminate Hm].
  rewrite !andb_true_iff, !bool_decide_eq_true in Hm. destruct Hm as [[Hv Hn] Hb]. rewrite decide_True by exact Hn. cbn [mbind option_bind]. rewrite decide_True by exact Hv.
  pose proof (H2 cls f Hv) as Hto. pose proof (solve_sat _ H1 cls f) as Hsat.
  destruct (sat cls f) as [m| |]; [|reflexivity|contradiction].
  exfalso. destruct (Hsat m eq_refl) as (_ & Hcs & Hl). pose proof (solve_unsat _ (proj1 brute_correct) cls f) as Hu.
  destruct (brute cls f); [discriminate Hb| |discriminate Hb]. rewrite (Hu eq_refl _ Hcs) in Hl. discriminate Hl.
Qed.
Lemma twice_flow (o : aig) (g : option (aig * NodeRewriting.classes)) : twice_db o g = true -> exists d y k, g = Some d /\
  choice_synthesis (flow_env d) apart_rnd true apart_ps (searcher 20) 1 o = Some y /\ mapper qops 7 12 id (kpar 6 10) y = Some k /\
  (forall sat, correct_solver sat -> complete_solver sat -> flow_check (flow_env d) sat y k = Some true) /\ forall env, ~ kcomputes k env [true; true].
Proof.
  destruct g as [d|]; [|intros H; discriminate H]. unfold twice_db. intros H.
  destruct (twice_verdict (flow_env d) _ eq_refl H) as (y & k & E & H1 & H2). clear H. exists d, y, k. split; [reflexivity|].
  unfold flow_run in E. apply bind_Some in E as (y' & Ey & E). apply bind_Some in E as (k' & Ek & E). injection E as -> ->.
  split; [exact Ey|]. split; [exact Ek|]. split; [exact H2|].
  clear -H1. intros env (v & V & H). rewrite H1 in H. cbn in H. injection H as _ H. rewrite (kv_0 _ _ _ V) in H. discriminate H.
Qed.
Lemma twice_ok : reachable rw_twice /\ is_combinational rw_twice = true /\ small 12 rw_twice /\ computes rw_twice (fun _ => true) [true; true].
Proof.
  assert (Hr : reachable rw_twice) by (apply build_reachable; vm_compute; reflexivity).
  split; [exact Hr|]. split; [vm_compute; reflexivity|]. split; [split; vm_compute; congruence|].
  apply computes_ev; [exact Hr|]. vm_compute. reflexivity.
Qed.
Theorem C55_check_refuted : exists s vs d y k env, reachable s /\ is_combinational s = true /\ small 12 s /\ db_valid vs /\ generate_db 1 vs = Some d /\
  choice_synthesis (flow_env d) apart_rnd true apart_ps (searcher 20) 1 s = Some y /\ mapper qops 7 12 id (kpar 6 10) y = Some k /\
  (forall sat, correct_solver sat -> complete_solver sat -> flow_check (flow_env d) sat y k = Some true) /\
  computes s env [true; true] /\ ~ kcomputes k env [true; true].
Proof.
  pose proof twice_run as H. pose proof twice_ok as Hok. pose proof and4_valid as Hv. revert H Hok Hv. generalize rw_twice and4_db. intros s vs H (H1 & H2 & H3 & H4) Hv.
  destruct (twice_flow s _ H) as (d & y & k & Hd & Hy & Hk & Hc & Hn). clear H.
  exists s, vs, d, y, k, (fun _ => true).
  exact (conj H1 (conj H2 (conj H3 (conj Hv (conj Hd (conj Hy (conj Hk (conj Hc (conj H4 (Hn _)))))))))).
Qed.
Print Assumptions C55_check_refuted.

(* ---- nonvacuity: the whole flow on x1 & x2 & x3 ---- *)
Definition flow_net : aig := build [OpPi; OpPi; OpPi; OpAnd (a_ 1) (a_ 2); OpAnd (a_ 3) (a_ 4); OpPo (a_ 5)].
Definition same_nodes (a b : aig) : bool := bool_decide (ks a = ks b) && bool_decide (ins a = ins b) && bool_decide (pos a = pos b).
Definition flow_shape (o : aig) (g : option (aig * NodeRewriting.classes)) : bool :=
  match g with
  | Some d => match flow_run (flow_env d) o with
    | Some (y, k) => bool_decide (npi (y_compress2 y) = 3) && forallb (fun n => bool_decide (is_dead (y_merged y) n = Some false)) (seq 0 (size (y_merged y))) &&
        forallb (fun c => match c_pass c with PRewrite _ => same_nodes (c_before c) (c_after c) | PBalance => true end) (y_calls1 y ++ y_calls2 y) &&
        bool_decide (size (cb (y_choice y)) = 6) && bool_decide (npo (cb (y_choice y)) = 1) && bool_decide (pos (cb (y_choice y)) = [a_ 5]) &&
        bool_decide (ks (cb (y_choice y)) !! 5 = Some (a_ 3, a_ 4)) && same_nodes o (y_original y) && bool_decide (is_combinational (y_original y) = true) &&
        bool_decide (flow_check (flow_env d) brute y k = Some true)
    | None => false end
  | None => false end.
Lemma flow_shape_run : flow_shape flow_net (generate_db 1 and4_db) = true.
Proof. vm_compute. reflexivity. Qed.
Lemma same_nodes_functions a b : same_nodes a b = true -> same_functions a b.
Proof.
  unfold same_nodes. rewrite !andb_true_iff, !bool_decide_eq_true. intros [[H1 H2] H3] env l. unfold computes. rewrite H3.
  split; intros (v & V & Hl); exists v; (split; [|done]); (eapply valuation_prefix; [| |exact V]; [exists []; rewrite app_nil_r|]; done).
Qed.
Lemma flow_shape_ok (o : aig) (g : option (aig * NodeRewriting.classes)) : flow_shape o g = true -> exists d y k, g = Some d /\
  choice_synthesis (flow_env d) apart_rnd true apart_ps (searcher 20) 1 o = Some y /\ mapper qops 7 12 id (kpar 6 10) y = Some k /\
  0 < npi (y_compress2 y) /\ alive (y_merged y) /\
  (N.of_nat (8 + size (cb (y_choice y)) * (8 + 2 * cut_size (kcut (kpar 6 10)) + 6 * (12 * 12))) <= 2 ^ 31)%N /\
  (N.of_nat (2 * size (cb (y_choice y)) + npo (cb (y_choice y))) < 2 ^ 31)%N /\
  (exists f, f ∈ pos (cb (y_choice y)) /\ is_gate (cb (y_choice y)) (sidx f)) /\
  (forall c ps, c ∈ y_calls1 y ++ y_calls2 y -> c_pass c = PRewrite ps -> keeps c) /\
  is_combinational (y_original y) = true /\ flow_check (flow_env d) brute y k = Some true.
Proof.
  destruct g as [d|]; [|intros H; discriminate H]. unfold flow_shape, flow_run. intros H.
  destruct (choice_synthesis (flow_env d) apart_rnd true apart_ps (searcher 20) 1 o) as [y|] eqn:Ey; [|discriminate H]. cbn [mbind option_bind] in H.
  destruct (mapper qops 7 12 id (kpar 6 10) y) as [k|] eqn:Ek; [|discriminate H]. cbn [mbind option_bind] in H.
  rewrite !andb_true_iff, !bool_decide_eq_true in H. destruct H as [[[[[[[[[H1 H2] H3] H4] H5] H6] H7] H8] H9] H10].
  exists d, y, k. split; [reflexivity|]. split; [exact Ey|]. split; [exact Ek|]. clear Ey Ek.
  split; [lia|]. split.
  { intros n (a & b & Hn & _). apply lookup_lt_Some in Hn. rewrite forallb_forall in H2. specialize (H2 n (proj2 (in_seq _ _ _) (conj (Nat.le_0_l _) Hn))).
    by apply bool_decide_eq_true in H2. }
  rewrite H4, H5. split; [vm_compute; congruence|]. split; [vm_compute; congruence|]. split.
  { exists (a_ 5). rewrite H6. split; [left|]. exists (a_ 3), (a_ 4). split; [exact H7|]. split; [cbn; lia|]. intros Hab. discriminate Hab. }
  split; [|split; [exact H9|exact H10]].
  intros c ps Hc Hp. rewrite forallb_forall in H3. apply elem_of_list_In in Hc. specialize (H3 c Hc). rewrite Hp in H3. by apply same_nodes_functions.
Qed.
Example C55_nonvacuous : exists o d y k, reachable o /\ is_combinational o = true /\ sorts_by_level (pe_srt (flow_env d)) /\ correct_oracle (searcher 20) /\
  correct_solver brute /\ generate_db 1 and4_db = Some d /\
  choice_synthesis (flow_env d) apart_rnd true apart_ps (searcher 20) 1 o = Some y /\ mapper qops 7 12 id (kpar 6 10) y = Some k /\
  0 < npi (y_compress2 y) /\ alive (y_merged y) /\
  (N.of_nat (8 + size (cb (y_choice y)) * (8 + 2 * cut_size (kcut (kpar 6 10)) + 6 * (12 * 12))) <= 2 ^ 31)%N /\
  (N.of_nat (2 * size (cb (y_choice y)) + npo (cb (y_choice y))) < 2 ^ 31)%N /\
  (exists f, f ∈ pos (cb (y_choice y)) /\ is_gate (cb (y_choice y)) (sidx f)) /\
  (forall c ps, c ∈ y_calls1 y ++ y_calls2 y -> c_pass c = PRewrite ps -> keeps c) /\
  is_combinational (y_original y) = true /\ flow_check (flow_env d) brute y k = Some true.
Proof.
  assert (R : reachable flow_net) by (apply build_reachable; vm_compute; reflexivity).
  assert (C : is_combinational flow_net = true) by (vm_compute; reflexivity).
  pose proof flow_shape_run as H. revert R C H. generalize flow_net and4_db. intros o vs R C H.
  destruct (flow_shape_ok o _ H) as (d & y & k & Hd & Hy). clear H. exists o, d, y, k.
  exact (conj R (conj C (conj level_sort_sorts (conj (searcher_correct 20) (conj (proj1 brute_correct) (conj Hd Hy)))))).
Qed.
