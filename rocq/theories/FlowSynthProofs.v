(* Proofs about Flow.v: the scripts, the merged network, the mapped network. *)
From Verif Require Import Base Aig AigSem AigProofs AigApi AigReach Topo Clean NetProofs CleanProofs Tt TtCache Cut CutEnum CutEnumProofs Cnf Sim PropNet
  Subst SubstProofs RefDeref PropRefDeref Rewrite PropRewrite NodeRewriting NodeRewritingProofs PropCutEnum RewriteSelect RewriteSelectProofs PropRewriteSelect
  Balance PropBalance Choice ChoiceSat ChoiceCompute ChoiceComputeProofs PropChoiceCompute ChoiceClasses PropChoiceClasses ChoiceMiter
  Klut KlutSem Mapping PropMapping PropCnf KlutMapping PropKlutMapping Flow FlowProofs.
Local Open Scope nat_scope.

Lemma same_refl s : same_functions s s.
Proof. done. Qed.
Lemma same_trans s t u : same_functions s t -> same_functions t u -> same_functions s u.
Proof. intros H1 H2 env l. by rewrite (H1 env l). Qed.

(* a network made by cleanup_dangling *)
Definition made (d : aig) : Prop := reachable d /\ is_combinational d = true /\ ins d = seq 1 (npi d).
Lemma cleanup_made nb s d : 0 < nb -> cleanup_dangling nb s false false = Some d -> made d.
Proof.
  intros Hnb H. destruct (cleanup_fresh nb s d Hnb H) as ((R & Hn & Hi) & Ho & _). split; [done|]. split; [|by rewrite Hn].
  apply bool_decide_eq_true_2. done.
Qed.

Lemma script_result_cons s c cs : script_result s (c :: cs) = script_result (c_after c) cs.
Proof. unfold script_result. rewrite last_cons. by destruct (last cs). Qed.

Section passes.
Context {D : Type} (E : pass_env D).
Hypothesis Hnb : 0 < pe_nb E.

Lemma run_pass_made p s t r : run_pass E p s = Some (t, r) -> made r.
Proof using Hnb.
  destruct p as [ps|]; cbn [run_pass].
  - unfold rewrite_in. intros H. apply bind_Some in H as ([[[s' v] a] l] & _ & H). apply bind_Some in H as ([u [t' v']] & _ & H).
    apply bind_Some in H as (r' & Er & [= <- <-]). by eapply cleanup_made.
  - intros H. apply bind_Some in H as (r' & Er & [= <- <-]). unfold balance_and in Er. apply bind_Some in Er as (x & _ & Er).
    apply bind_Some in Er as ([u y] & _ & Er). by eapply cleanup_made.
Qed.
(* the calls of a script follow each other *)
Lemma script_made l s cs : run_script E l s = Some cs -> l <> [] -> made (script_result s cs).
Proof using Hnb.
  revert s cs. induction l as [|p l IH]; intros s cs H Hne; [done|]. cbn [run_script] in H.
  apply bind_Some in H as ([t r] & Ep & H). apply bind_Some in H as (cs' & Ec & [= <-]).
  destruct l as [|q l]; [cbn in Ec; injection Ec as <-; by eapply run_pass_made|].
  rewrite script_result_cons. by apply IH.
Qed.
Lemma script_keeps l s cs : sorts_by_level (pe_srt E) -> reachable s -> is_combinational s = true -> run_script E l s = Some cs ->
  (forall c ps, c ∈ cs -> c_pass c = PRewrite ps -> keeps c) -> same_functions s (script_result s cs).
Proof using Hnb.
  intros Hsrt. revert s cs. induction l as [|p l IH]; intros s cs R C H Hk; cbn [run_script] in H.
  { injection H as <-. apply same_refl. }
  apply bind_Some in H as ([t r] & Ep & H). apply bind_Some in H as (cs' & Ec & [= <-]).
  pose proof (run_pass_made _ _ _ _ Ep) as (Rr & Cr & _).
  assert (H1 : same_functions s r).
  { destruct p as [ps|]; [exact (Hk (Call (PRewrite ps) s t r) ps ltac:(left) eq_refl)|]. cbn [run_pass] in Ep. apply bind_Some in Ep as (r' & Er & [= <- <-]).
    destruct (C23_balance_reachable (pe_nb E) (pe_srt E) s Hnb Hsrt R C) as (d & Ed & _ & _ & _ & _ & Hd). rewrite Er in Ed. injection Ed as <-. exact Hd. }
  pose proof (IH r cs' Rr Cr Ec ltac:(intros c ps Hc; apply Hk; by right)) as H2.
  rewrite script_result_cons. by eapply same_trans.
Qed.

(* one call of rewriting whose replacements do not get in each other's way *)
Lemma rewrite_in_harmless b vs ps s x :
  reachable s -> is_combinational s = true -> 0 < pe_max E -> small (pe_max E) s ->
  cut_enumeration true (pe_lt E) (pe_upd E) (pe_d0 E) (pe_cap E) (pe_max E) s (pe_cps E) = Some x ->
  0 < b -> (N.of_nat (length vs) < 2 ^ 26)%N -> db_valid vs -> generate_db b vs = Some (pe_db E) ->
  harmless_call E ps s ->
  exists t r, rewrite_in E ps s = Some (t, r) /\ network t /\ is_combinational t = true /\ npi t = npi s /\ npo t = npo s /\
    same_functions s t /\ made r /\ npi r = npi s /\ npo r = npo s /\ same_functions s r.
Proof using Hnb.
  intros R Hcomb Hm Hsm Hx Hb Hl Hvs Hd Hok. pose proof Hcomb as [Hc _]%bool_decide_eq_true.
  destruct (select_all_ok (pe_lt E) (pe_upd E) (pe_d0 E) (pe_cap E) (pe_max E) (pe_cps E) b vs (pe_db E) ps s x R Hc Hm Hsm Hx Hb Hl Hvs Hd) as (s' & v & a & l & Es & Hi).
  destruct (Hok _ _ _ _ Es) as [Hmod Hh].
  pose proof (r_ext _ _ _ _ _ _ Hi) as X. pose proof (r_reach _ _ _ _ _ _ Hi) as R'.
  assert (Hc' : is_combinational s' = true).
  { apply bool_decide_eq_true in Hcomb as [? ?]. apply bool_decide_eq_true_2. rewrite (ext_ins _ _ X), (ext_npi _ _ X), (ext_outs _ _ X), (ext_npo _ _ X). done. }
  destruct (replace_all_spec (recorded_fanouts s) l s' v) as (t & v' & Et & Hn & Hf & Ht).
  - by apply reach_net.
  - exact Hmod.
  - intros y. rewrite (r_val _ _ _ _ _ _ Hi Hmod). pose proof (references_small s (proj2 Hsm) y). lia.
  - destruct (ext_ks _ _ X) as [w Hw]. apply (C34_recorded s s'); [by apply reach_net| |].
    + intros n (ka & kb & Hk & Hn & Hab). exists ka, kb. split; [|done]. rewrite Hw. by apply lookup_app_l_Some.
    + intros n (ka & kb & Hk & Hn & Hab) Hlt. exists ka, kb. split; [|done]. rewrite Hw, lookup_app_l in Hk by exact Hlt. done.
  - exact Hh.
  - pose proof Hf as (Hfi & Hfpi & Hfpo & _ & _ & Hflo).
    assert (Hct : is_combinational t = true).
    { apply bool_decide_eq_true in Hc' as [? ?]. apply bool_decide_eq_true_2. rewrite Hfi, Hfpi, Hfpo, Hflo. done. }
    destruct (C20_cleanup_preserves (pe_nb E) t Hnb Hn Hct) as (r & Er & _ & Hri & Hro & _ & Hr).
    assert (Hst : same_functions s t).
    { intros env l0. rewrite (Ht env l0). by apply ext_computes. }
    pose proof (cleanup_made _ _ _ Hnb Er) as (Mr1 & Mr2 & Mr3).
    exists t, r. split_and!; try done.
    + unfold rewrite_in, select_in. rewrite Es. cbn [mbind option_bind]. rewrite Et. cbn [mbind option_bind]. rewrite Er. done.
    + rewrite Hfpi. apply X.
    + rewrite Hfpo. apply X.
    + rewrite Hri, Hfpi. apply X.
    + rewrite Hro, Hfpo. apply X.
    + by eapply same_trans.
Qed.
End passes.

(* ---- the merged network ---- *)
Lemma merge_same b c2 c o t : 0 < b -> made c2 -> 0 < npi c2 ->
  merge [c2; c; o] [Entry 0 0; Entry 1 1; Entry 2 2] (aig_init_n b) = Some t -> alive t ->
  swept t /\ is_combinational t = true /\ npi t = npi c2 /\ npo t = npo c2 /\ same_functions c2 t /\
  npi c = npi c2 /\ npo c = npo c2 /\ npi o = npi c2 /\ npo o = npo c2.
Proof.
  intros Hb (R & C & Hi) Hp Hm Ha. pose proof C as [C1 C2]%bool_decide_eq_true.
  destruct (merge_first [c2; c; o] (Entry 0 0) [Entry 1 1; Entry 2 2] c2 (npi c2) (npo c2)) with (b := b) (t := t)
    as (N & Hpi & Hin & Hpo & Hlo & Ho & t0 & R0 & Hk & Hi0 & Hph); try done.
  { intros e He. rewrite !elem_of_cons, elem_of_nil in He. destruct He as [->|[->|[]]]; done. }
  assert (Ct : is_combinational t = true).
  { apply bool_decide_eq_true_2. rewrite Hin, seq_length. split; lia. }
  assert (Hev : forall env, valuation t env (ev t env)).
  { intros env. apply (valuation_prefix t t0); [exists []; by rewrite app_nil_r, Hk|done|]. unfold ev. rewrite Hk. apply ev_valuation. by apply reachable_wf. }
  split; [by apply (swept_of t t0 (npi c2))|]. split; [done|]. split; [done|]. split; [done|]. split.
  - assert (Hmap : forall env, map (sval (ev t env)) (pos t) = map (sval (ev c2 env)) (pos c2)).
    { intros env. unfold pos. rewrite Hpo, !firstn_all2 by lia. apply list_eq. intros i. rewrite !list_lookup_fmap.
      destruct (outs c2 !! i) as [f|] eqn:Ef.
      - destruct (Ho i f Ef) as (g & -> & _ & Hg). cbn. by rewrite Hg.
      - apply lookup_ge_None in Ef. by rewrite (proj2 (lookup_ge_None _ _)) by lia. }
    intros env l. rewrite (computes_ev c2 env l R). rewrite <- Hmap. split.
    + intros ->. by exists (ev t env).
    + intros H. apply (computes_unique t env _ _ N H). by exists (ev t env).
  - unfold merge in Hm. cbn [lookup list_lookup mbind option_bind estor] in Hm. rewrite decide_False in Hm by (cbn; lia).
    apply bind_Some in Hm as (ok & Hok & Hm). destruct ok; [|done]. clear Hm. cbn [same_interface estor lookup list_lookup mbind option_bind] in Hok.
    injection Hok as Hok. rewrite !andb_true_iff, !bool_decide_eq_true in Hok. intuition.
Qed.
