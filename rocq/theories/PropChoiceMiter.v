(* C41: the choice miter of several networks. *)
From Verif Require Import Base Aig AigSem AigHash AigProofs AigApi NetProofs Demo ChoiceMiter ChoiceMiterProofs.

Lemma valuation_same s t env v : ks s = ks t -> ins s = ins t -> valuation s env v -> valuation t env v.
Proof. intros Hk Hi [H1 H2 H3]. split; [done|by rewrite <- Hi|by rewrite <- Hk]. Qed.

(* Merging is defined; the miter has the common interface, computes at every
   output what the first network computes there, and contains for every node of
   the cone of every output of every network a node of the same function. *)
Theorem C41_merge heap es np no b : mergeable heap es np no -> 0 < b -> exists t,
  merge heap es (aig_init_n b) = Some t /\ network t /\
  npi t = np /\ ins t = seq 1 np /\ npo t = no /\ length (outs t) = no /\
  (forall e s i f env v w, es !! 0 = Some e -> heap !! estor e = Some s -> outs s !! i = Some f ->
     valuation s env v -> valuation t env w ->
     exists g, outs t !! i = Some g /\ sval w g = sval v f) /\
  (forall e s i f n, e ∈ es -> heap !! estor e = Some s -> outs s !! i = Some f -> rtc (fanin s) (sidx f) n ->
     exists m, m < size t /\ forall env v w, valuation s env v -> valuation t env w -> w m = v n).
Proof.
  intros Hmg Hb. destruct (merge_spec heap es np no Hmg b Hb) as (t & E & Hn & Hp & Hi & Ho & Hl & H1 & H2 & t0 & Hw & Hk0 & Hi0 & _).
  exists t. do 6 (split; [done|]).
  assert (Hval : forall env w n, valuation t env w -> n < size t -> w n = ev t env n).
  { intros env w n Hv Hlt. apply (valuation_same _ t0) in Hv; [|done..].
    rewrite (valuation_unique t0 env w Hw Hv n) by (unfold size; by rewrite <- Hk0). unfold ev. by rewrite Hk0. }
  assert (Hnet : forall e s, e ∈ es -> heap !! estor e = Some s -> reachable s).
  { intros e s He Hs. destruct (mg_net _ _ _ _ Hmg e He) as (s' & Hs' & Hr & _). congruence. }
  split.
  - intros e s i f env v w He Hs Hf Hv Hw'. destruct (H1 e s i f He Hs Hf) as (g & Hg & Hev).
    exists g. split; [done|]. pose proof (Hnet e s ltac:(by eapply elem_of_list_lookup_2) Hs) as Hr.
    pose proof (Forall_lookup_1 _ _ _ _ (net_out t Hn) Hg) as Hgv.
    transitivity (sval (ev t env) g); [unfold sval; by rewrite (Hval env w _ Hw' Hgv)|]. rewrite Hev.
    symmetry. apply (valuation_sval s env v f (reachable_wf _ Hr) Hv).
    apply (wf_out s (reachable_wf _ Hr)). by eapply elem_of_list_lookup_2.
  - intros e s i f n He Hs Hf Hrt. destruct (H2 e s i f n He Hs Hf Hrt) as (m & Hm & Hev). exists m. split; [done|].
    intros env v w Hv Hw'. rewrite (Hval env w m Hw' Hm), Hev. symmetry. pose proof (Hnet e s He Hs) as Hr.
    apply (valuation_unique s env v (reachable_wf _ Hr) Hv).
    pose proof (wf_out s (reachable_wf _ Hr) f ltac:(by eapply elem_of_list_lookup_2)) as Hfv.
    apply rtc_inv_r in Hrt as [<-|(y & _ & Hy)]; [done|]. apply (net_gate s (wf_network _ (reachable_wf _ Hr)) _ _ Hy).
Qed.
Print Assumptions C41_merge.

(* A single network is returned as it is. *)
Theorem C41_single heap e s new : heap !! estor e = Some s -> merge heap [e] new = Some s.
Proof. intros Hs. unfold merge. cbn. by rewrite Hs. Qed.
Print Assumptions C41_single.

(* Nonvacuity: x&(y&z) and (x&y)&z, the second also through a second pointer to
   the same storage. *)
Definition miter_a : aig := build [OpPi; OpPi; OpPi; OpAnd (Sig 2 false) (Sig 3 false); OpAnd (Sig 1 false) (Sig 4 false); OpPo (Sig 5 false); OpPo (Sig 4 true)].
Definition miter_b : aig := build [OpPi; OpPi; OpPi; OpAnd (Sig 1 false) (Sig 2 false); OpAnd (Sig 4 false) (Sig 3 false); OpPo (Sig 5 false); OpPo (Sig 0 true)].
Definition miter_es := [Entry 0 0; Entry 1 1; Entry 2 1].
Example miter_demo : mergeable [miter_a; miter_b] miter_es 3 2 /\
  exists t, merge [miter_a; miter_b] miter_es (aig_init_n 7) = Some t /\ outs t = [Sig 5 false; Sig 4 true] /\ size t = 8.
Proof.
  split.
  - split; [cbn; lia|lia| |].
    + intros e He. repeat (apply elem_of_cons in He as [->|He]; [eexists; split; [reflexivity|]; split;
        [apply build_reachable; vm_compute; reflexivity|vm_compute; split_and!; reflexivity]|]). by apply elem_of_nil in He.
    + intros e e' He He'. repeat (apply elem_of_cons in He as [->|He]; [repeat (apply elem_of_cons in He' as [->|He'];
        [cbn; try reflexivity; discriminate|]); by apply elem_of_nil in He'|]). by apply elem_of_nil in He.
  - eexists. split; [vm_compute; reflexivity|]. split; reflexivity.
Qed.

(* Without the condition on the inputs the output functions are lost: with an
   input created after a gate, the gate keeps the entry of that input in the map. *)
Definition late_pi : aig := build [OpPi; OpPi; OpAnd (Sig 1 false) (Sig 2 false); OpPi; OpPo (Sig 3 false)].
Theorem C41_late_input_refuted : exists s t env v w f g,
  reachable s /\ is_combinational s = true /\ merge [s] [Entry 0 0; Entry 1 0] (aig_init_n 7) = Some t /\
  npi t = npi s /\ outs s = [f] /\ outs t = [g] /\ valuation s env v /\ valuation t env w /\ sval w g <> sval v f.
Proof.
  assert (Hr : reachable late_pi) by (apply build_reachable; vm_compute; reflexivity).
  eassert (Hm : merge [late_pi] [Entry 0 0; Entry 1 0] (aig_init_n 7) = Some _) by (vm_compute; reflexivity).
  match type of Hm with _ = Some ?t => set (t0 := t) in Hm end.
  set (env := fun k : nat => bool_decide (k = 2)).
  exists late_pi, t0, env, (ev late_pi env), (ev t0 env), (Sig 3 false), (Sig 3 false).
  split; [exact Hr|]. split; [vm_compute; reflexivity|]. split; [exact Hm|].
  split; [vm_compute; reflexivity|]. split; [vm_compute; reflexivity|]. split; [vm_compute; reflexivity|].
  split; [apply ev_valuation, reachable_wf, Hr|]. split; [|vm_compute; discriminate].
  set (t1 := build [OpPi; OpPi; OpPi; OpAnd (Sig 1 false) (Sig 2 false)]).
  apply (valuation_same t1 t0); [vm_compute; reflexivity|vm_compute; reflexivity|].
  replace (ev t0 env) with (ev t1 env); [|unfold ev; f_equal; vm_compute; reflexivity].
  apply ev_valuation, reachable_wf, build_reachable. vm_compute. reflexivity.
Qed.
Print Assumptions C41_late_input_refuted.

(* clear() keeps the network built so far: a second merge with the same object
   has twice as many inputs, and other outputs. *)
Theorem C41_reuse_refuted : exists heap es t t', mergeable heap es 3 2 /\
  merge heap es (aig_init_n 7) = Some t /\ merge heap es t = Some t' /\ npi t' = 6 /\ length (outs t') = 3.
Proof.
  destruct miter_demo as (Hmg & t & Ht & _).
  destruct (merge [miter_a; miter_b] miter_es t) as [t'|] eqn:E.
  - exists [miter_a; miter_b], miter_es, t, t'. split; [exact Hmg|]. split; [exact Ht|]. split; [exact E|].
    vm_compute in Ht. injection Ht as <-. vm_compute in E. injection E as <-. split; reflexivity.
  - exfalso. vm_compute in Ht. injection Ht as <-. vm_compute in E. discriminate E.
Qed.
Print Assumptions C41_reuse_refuted.

(* The loop over the networks counts with eight bits: it does not end for 256
   networks (None in the model). *)
Theorem C41_many_refuted heap es e s new : es !! 0 = Some e -> heap !! estor e = Some s -> 0 < npi s ->
  256 <= length es -> merge heap es new = None.
Proof.
  intros He Hs Hp Hl. unfold merge. rewrite He. cbn [mbind option_bind]. rewrite Hs. cbn [mbind option_bind].
  rewrite decide_False by lia. destruct (same_interface heap s es) as [[]|]; cbn [mbind option_bind negb]; [|done..].
  by rewrite decide_True by lia.
Qed.
Print Assumptions C41_many_refuted.

(* Without inputs the constant node is not recognised as a leaf: the traversal
   from a constant output does not end, whatever the recursion depth allowed. *)
Definition const_out : aig := build [OpPo (Sig 0 false)].
Theorem C41_no_inputs_refuted es e fuel st : mvis st (estor e) 0 = false -> dfs es fuel e const_out 0 st = None.
Proof.
  revert st. induction fuel as [|fuel IH]; intros st Hv; [done|]. cbn [dfs].
  replace (is_pi const_out 0) with (Some false) by (vm_compute; reflexivity). cbn [mbind option_bind].
  rewrite Hv. replace (ks const_out !! 0) with (Some (Sig 0 false, Sig 0 false)) by (vm_compute; reflexivity).
  cbn [mbind option_bind fst sidx]. unfold bnd at 1. by rewrite IH.
Qed.
Print Assumptions C41_no_inputs_refuted.
