(* C40: the computation of a network with choices. *)
From Verif Require Import Base Aig AigSem AigHash AigProofs AigApi AigReach NetProofs Clean Demo Cnf CnfProofs Choice ChoiceProofs ChoiceSat ChoiceSatProofs
  PropChoiceSat ChoiceMiter ChoiceMiterProofs PropChoiceMiter ChoiceCompute ChoiceComputeProofs ChoiceDeriveProofs ChoiceDupProofs.

(* Whatever the candidate classes are and however often the solver gives up,
   sweeping records only representatives that are equal to the node or to its
   complement, and that do not come after it. *)
Theorem C40_sweep ps solve sim nb s rp : swept s -> correct_oracle solve -> 0 < nb ->
  man_sweep ps solve sim s nb = Some rp -> sound_reprs s rp.
Proof. intros P Ho Hb. by apply man_sweep_sound. Qed.
Print Assumptions C40_sweep.

(* Below init_vars (1000) nodes sweeping goes through. *)
Theorem C40_sweep_defined ps solve sim nb s : swept s -> correct_oracle solve -> 0 < nb -> size s < init_vars ps ->
  (forall n, sim n < size s) -> is_Some (man_sweep ps solve sim s nb).
Proof. intros P Ho Hb. by apply man_sweep_total. Qed.
Print Assumptions C40_sweep_defined.

(* From any sound representatives: if derive_choice_aig returns, its network has
   the inputs and the output functions of the given one, and a choice link leads
   from a node to an earlier node with the same or the complementary function. *)
Theorem C40_derive nb rp s c : swept s -> sound_reprs s rp -> 0 < nb -> derive_choice_aig nb rp s = Some c ->
  reachable (cb c) /\ is_combinational (cb c) = true /\ same_outputs s (cb c) /\ forall n m, link c n m -> m < n /\ alike (cb c) n m.
Proof.
  intros P Hrp Hb E. unfold derive_choice_aig in E. pose proof (derive_spec rp s P Hrp nb Hb) as D.
  destruct (derive rp s nb) as [t|]; [|done]. cbn [mbind option_bind] in E.
  destruct (man_dup_dfs_spec t (length (ins s)) (dr_hist _ _ D) (dr_ins _ _ D) (dr_len _ _ D) (dr_links _ _ D) nb Hb)
    as (c' & E' & R & Hi & Hpi & Hpo & Ho & Hl).
  rewrite E in E'. injection E' as <-. split; [done|]. split.
  { unfold is_combinational. rewrite Hi, Hpi, Hpo, seq_length. rewrite !bool_decide_eq_true_2 by done. done. }
  split; [|done]. split; [by rewrite Hi, seq_length|]. intros env v w V W.
  pose proof (reachable_wf _ R) as Wc. pose proof (ci_reach _ (chist_cinv _ (dr_hist _ _ D))) as Rt.
  pose proof (ev_valuation _ env (reachable_wf _ Rt)) as Vt. pose proof (dr_outs _ _ D) as Hd.
  clear -Ho Hd Vt V W Wc.
  revert Ho Hd. generalize (outs (cb t)), (outs (cb c)), (outs s). intros l2 l3 l1 Ho. revert l1.
  induction Ho as [|f2 f3 l2 l3 [V3 H3] _ IH]; intros l1 Hd; inversion Hd as [|f1 ? l1' ? [V2 H2] Hd']; subst; [done|]. cbn [map]. f_equal; [|by apply IH].
  rewrite <- (H2 env v V), <- (H3 env _ Vt). unfold sval. f_equal. by apply valuation_unique.
Qed.
Print Assumptions C40_derive.

Theorem C40_sound ps solve sim nb s c : swept s -> correct_oracle solve -> 0 < nb -> compute_choice ps solve sim nb s = Some c ->
  reachable (cb c) /\ is_combinational (cb c) = true /\ same_outputs s (cb c) /\ forall n m, link c n m -> m < n /\ alike (cb c) n m.
Proof.
  intros P Ho Hb E. unfold compute_choice in E. apply bind_Some in E as (rp & Er & E).
  eapply C40_derive; [done| |done|done]. by eapply C40_sweep.
Qed.
Print Assumptions C40_sound.

(* If representatives are the first nodes of their kind, as long as equal nodes
   are not separated, the derivation goes through. *)
Theorem C40_defined nb rp s : swept s -> sound_reprs s rp -> first_reprs s rp -> 0 < nb -> is_Some (derive_choice_aig nb rp s).
Proof.
  intros P Hrp F Hb. unfold derive_choice_aig. pose proof (derive_spec rp s P Hrp nb Hb) as D.
  destruct (derive rp s nb) as [t|]; [|done]. cbn [mbind option_bind].
  destruct (man_dup_dfs_spec t (length (ins s)) (dr_hist _ _ D) (dr_ins _ _ D) (dr_len _ _ D) (dr_links _ _ D) nb Hb) as (c & -> & _).
  by eexists.
Qed.
Print Assumptions C40_defined.

(* ---- where the networks come from ---- *)
Lemma swept_of t t0 k : reachable t0 -> network t -> ks t = ks t0 -> ins t = ins t0 -> ph t = ph t0 -> ins t = seq 1 k -> alive t -> swept t.
Proof.
  intros R N Ek Ei Ep Es Ha. split; try done.
  - intros n m (a & b & E & H0 & Hab & Hm). rewrite Ek in E. apply (fanin_less t0 n m R). exists a, b. done.
  - rewrite Es. by rewrite seq_length.
  - intros n v Hn V. unfold size in Hn. rewrite Ek in Hn. destruct (phase_defined t0 n R Hn) as [p E]. rewrite Ep, E. f_equal.
    eapply phase_exact; [done|done|]. eapply valuation_prefix; [| |exact V]; [exists []; by rewrite app_nil_r|done].
Qed.
(* networks built with all inputs first *)
Theorem C40_built s k : reachable s -> ins s = seq 1 k -> alive s -> swept s.
Proof. intros R Hi Ha. apply (swept_of s s k); [done|by apply wf_network, reachable_wf|done..]. Qed.
Print Assumptions C40_built.
(* miters of several networks (C41) *)
Theorem C40_miter heap es np no b t : mergeable heap es np no -> 0 < b -> merge heap es (aig_init_n b) = Some t -> alive t -> swept t.
Proof.
  intros Hm Hb E Ha. destruct (merge_spec heap es np no Hm b Hb) as (t' & E' & N & _ & Hi & _ & _ & _ & _ & t0 & _ & Hk & Hi0 & R & Hp).
  rewrite E in E'. injection E' as <-. by apply (swept_of t t0 np).
Qed.
Print Assumptions C40_miter.

(* ---- nonvacuity: the miter of C41 ---- *)
(* 4 = y&z, 5 = x&4, 6 = x&y, 7 = 6&z; outputs 5 and !4; node 7 is proved equal to 5 *)
Definition cc_params := Sparams true 5000 100 1000.
Definition cc_sim (n : nat) : nat := if decide (n = 7) then 5 else n.
Definition cc_net : aig := default (aig_init_n 1) (merge [miter_a; miter_b] miter_es (aig_init_n 7)).
Example C40_nonvacuous : swept cc_net /\ correct_oracle try_all /\
  man_sweep cc_params try_all cc_sim cc_net 7 = Some [0; 1; 2; 3; 4; 5; 6; 5] /\
  exists c, compute_choice cc_params try_all cc_sim 7 cc_net = Some c /\
    ks (cb c) = [(Sig 0 false, Sig 0 false); (sig_of_data 0, sig_of_data 0); (sig_of_data 1, sig_of_data 1); (sig_of_data 2, sig_of_data 2);
      (Sig 1 false, Sig 2 false); (Sig 3 false, Sig 4 false); (Sig 2 false, Sig 3 false); (Sig 1 false, Sig 6 false)] /\
    outs (cb c) = [Sig 7 false; Sig 6 true] /\ equivs c !! 7 = Some (Some 5).
Proof.
  split.
  { destruct miter_demo as [Hm (t & E & _)]. unfold cc_net. rewrite E. cbn [default].
    eapply C40_miter; [exact Hm|exact (Nat.lt_0_succ 6)|exact E|]. vm_compute in E. injection E as <-.
    intros n (a & b & Hk & _). apply lookup_lt_Some in Hk. cbn in Hk.
    do 8 (destruct n as [|n]; [vm_compute; reflexivity|]). lia. }
  split; [exact try_all_correct|]. split; [vm_compute; reflexivity|].
  eexists. split; [vm_compute; reflexivity|]. vm_compute. done.
Qed.

(* ---- representatives that are not the first of their kind ---- *)
(* x&(y&z) three times, y&z twice: 5 = (x&y)&z, 6 = y&z, 7 = x&6, 9 = y&(x&z),
   11 = y&!(y&!z), 12 = x&11.  With 9 put into the class of 7 and 12 into that of 5
   an assertion of set_choice fails: 12 becomes node 7 again, which is the head of
   a class. *)
Definition split_net : aig := build [OpPi; OpPi; OpPi;
  OpAnd (Sig 1 false) (Sig 2 false); OpAnd (Sig 3 false) (Sig 4 false); OpAnd (Sig 2 false) (Sig 3 false); OpAnd (Sig 1 false) (Sig 6 false);
  OpAnd (Sig 1 false) (Sig 3 false); OpAnd (Sig 2 false) (Sig 8 false); OpAnd (Sig 2 false) (Sig 3 true); OpAnd (Sig 2 false) (Sig 10 true);
  OpAnd (Sig 1 false) (Sig 11 false); OpPo (Sig 12 false)].
Definition split_reprs : list nat := [0; 1; 2; 3; 4; 5; 6; 7; 8; 7; 10; 6; 5].
Lemma split_swept : swept split_net.
Proof.
  apply (C40_built split_net 3); [apply build_reachable; vm_compute; reflexivity|vm_compute; reflexivity|].
  intros n (a & b & Hk & _). apply lookup_lt_Some in Hk. vm_compute in Hk.
  do 13 (destruct n as [|n]; [vm_compute; reflexivity|]). lia.
Qed.
Theorem C40_assertion_refuted : exists s rp, swept s /\ sound_reprs s rp /\ derive_choice_aig 7 rp s = None.
Proof.
  exists split_net, split_reprs. split; [exact split_swept|]. split; [|vm_compute; reflexivity]. split; [vm_compute; reflexivity|].
  assert (K : forall env v, valuation split_net env v -> v 4 = v 1 && v 2 /\ v 5 = v 3 && v 4 /\ v 6 = v 2 && v 3 /\ v 7 = v 1 && v 6 /\
    v 8 = v 1 && v 3 /\ v 9 = v 2 && v 8 /\ v 10 = v 2 && negb (v 3) /\ v 11 = v 2 && negb (v 10) /\ v 12 = v 1 && v 11).
  { intros env v V. pose proof (val_gate _ _ _ V) as G. unfold sval in G.
    assert (G' : forall n a b, ks split_net !! n = Some (a, b) -> n <> 0 -> a <> b -> v n = xorb (v (sidx a)) (scompl a) && xorb (v (sidx b)) (scompl b)) by exact G.
    rewrite (G' 4 (Sig 1 false) (Sig 2 false)) at 1 by (vm_compute; done).
    rewrite (G' 5 (Sig 3 false) (Sig 4 false)) at 1 by (vm_compute; done).
    rewrite (G' 6 (Sig 2 false) (Sig 3 false)) at 1 by (vm_compute; done).
    rewrite (G' 7 (Sig 1 false) (Sig 6 false)) at 1 by (vm_compute; done).
    rewrite (G' 8 (Sig 1 false) (Sig 3 false)) at 1 by (vm_compute; done).
    rewrite (G' 9 (Sig 2 false) (Sig 8 false)) at 1 by (vm_compute; done).
    rewrite (G' 10 (Sig 2 false) (Sig 3 true)) at 1 by (vm_compute; done).
    rewrite (G' 11 (Sig 2 false) (Sig 10 true)) at 1 by (vm_compute; done).
    rewrite (G' 12 (Sig 1 false) (Sig 11 false)) at 1 by (vm_compute; done).
    cbn [sidx scompl]. rewrite !xorb_false_r, !xorb_true_r. split_and!; reflexivity. }
  intros n r E. pose proof (lookup_lt_Some _ _ _ E) as Hn. change (length split_reprs) with 13 in Hn.
  do 13 (destruct n as [|n]; [vm_compute in E; injection E as <-; (split; [lia|]);
    (apply alike_refl || (exists false; intros env v V; destruct (K env v V) as (K4 & K5 & K6 & K7 & K8 & K9 & K10 & K11 & K12); rewrite ?K12, ?K11, ?K10, ?K9, ?K8, ?K7, ?K6, ?K5, ?K4;
       destruct (v 1), (v 2), (v 3); reflexivity))|]). lia.
Qed.
Print Assumptions C40_assertion_refuted.
