(* C35: dereferencing and referencing of cones. *)
From Verif Require Import Base Aig AigSem AigHash AigProofs AigApi Topo Clean NetProofs Demo RefDeref RefDerefProofs.

Definition in_range (v : values) : Prop := forall y, (v y < 2 ^ 32)%N.
Definition moderate (s : aig) : Prop := (N.of_nat (size s) < 2 ^ 30)%N.

Lemma moderate_Z s : moderate s -> (Z.of_nat (size s) < 2 ^ 30)%Z.
Proof. unfold moderate. lia. Qed.
Definition leaf_b (leaves : list nat) (n : nat) : bool := bool_decide (n ∈ leaves).
Definition term_b (s : aig) (n : nat) : bool := match term_fn s n with Some b => b | None => false end.
Lemma term_total s n : n < size s -> term_fn s n = Some (term_b s n).
Proof.
  intros Hn. unfold term_b, term_fn, is_pi. case_decide; [done|]. by destruct (lookup_lt_is_Some_2 (ks s) n Hn) as [k ->].
Qed.

(* Dereferencing the cone of a cut and referencing it again restores every count
   and visits the same number of nodes, whatever the counts were (also when they
   wrap around); so does the other order. *)
Theorem C35_cut_deref_ref s n leaves v : network s -> moderate s -> n < size s -> in_range v ->
  exists c v1 v2, deref_cut s n leaves v = Some (c, v1) /\ ref_cut s n leaves v1 = Some (c, v2) /\ forall y, v2 y = v y.
Proof.
  intros Hnet Hm Hn Hv. unfold deref_cut, ref_cut.
  apply (deref_ref s (leaf_b leaves) Hnet (at_leaves leaves)); [done|done|by apply moderate_Z|done].
Qed.
Print Assumptions C35_cut_deref_ref.

Theorem C35_cut_ref_deref s n leaves v : network s -> moderate s -> n < size s -> in_range v ->
  exists c v1 v2, ref_cut s n leaves v = Some (c, v1) /\ deref_cut s n leaves v1 = Some (c, v2) /\ forall y, v2 y = v y.
Proof.
  intros Hnet Hm Hn Hv. unfold deref_cut, ref_cut.
  apply (ref_deref s (leaf_b leaves) Hnet (at_leaves leaves)); [done|done|by apply moderate_Z|done].
Qed.
Print Assumptions C35_cut_ref_deref.

(* The assertions of derefed_size and refed_size hold, and both leave the counts
   as they were. *)
Theorem C35_sizes s n v : network s -> moderate s -> n < size s -> in_range v ->
  (exists c v', derefed_size s n v = Some (c, v') /\ forall y, v' y = v y) /\
  (exists c v', refed_size s n v = Some (c, v') /\ forall y, v' y = v y).
Proof.
  intros Hnet Hm Hn Hv. split.
  - destruct (deref_ref s (term_b s) Hnet (term_fn s) (term_total s) n v Hn (moderate_Z s Hm) Hv) as (c & v1 & v2 & E1 & E2 & H).
    exists c, v2. split; [|done]. unfold derefed_size, deref_node_recursive, ref_node_recursive, bnd. rewrite E1, E2. by rewrite decide_True.
  - destruct (ref_deref s (term_b s) Hnet (term_fn s) (term_total s) n v Hn (moderate_Z s Hm) Hv) as (c & v1 & v2 & E1 & E2 & H).
    exists c, v2. split; [|done]. unfold refed_size, deref_node_recursive, ref_node_recursive, bnd. rewrite E1, E2. by rewrite decide_True.
Qed.
Print Assumptions C35_sizes.

(* With the reference counts of the network, dereferencing returns the size of the
   fanout-free cone above the leaves and brings the counts inside it to zero; this
   cone is unique. *)
Theorem C35_cone_size s n leaves v : network s -> moderate s -> n < size s -> n ∉ leaves -> in_range v ->
  (forall y, v y = N.of_nat (references s y)) ->
  exists E v', deref_cut s n leaves v = Some (length E, v') /\ ffc s (leaf_b leaves) n E /\
    forall y, y ∈ E -> y <> n -> v' y = 0%N.
Proof.
  intros Hnet Hm Hn Hl Hv Hr.
  destruct (deref_ffc s (leaf_b leaves) Hnet (at_leaves leaves) ltac:(done) n v Hn (moderate_Z s Hm)) as (E & v' & EE & Hf & _ & H);
    [by apply bool_decide_eq_false_2|done|done|].
  exists E, v'. split; [done|]. split; [done|]. intros y. apply H.
Qed.
Print Assumptions C35_cone_size.

Theorem C35_cone_unique s halt n E1 E2 : network s -> ffc s halt n E1 -> ffc s halt n E2 -> E1 ≡ₚ E2.
Proof. apply ffc_unique. Qed.
Print Assumptions C35_cone_unique.

(* Evaluating candidates in between, on a growing network, does no harm: after the
   evaluation of a cut all counts are back. *)
Lemma trial_frame leaves s v s' v' : trial leaves s v s' v' -> network s -> moderate s -> in_range v ->
  network s' /\ moderate s' /\ (exists t, ks s' = ks s ++ t) /\ forall y, v' y = v y.
Proof.
  induction 1 as [s v|s v s1 s2 v2 Hn1 Hk1 Hm1 _ IH|s v n c1 v1 c2 v2 s' v' Hn E1 E2 _ IH]; intros Hnet Hm Hv.
  - split; [done|]. split; [done|]. split; [exists []; by rewrite app_nil_r|done].
  - destruct (IH Hn1 Hm1 Hv) as (? & ? & [t2 Ht2] & ?). destruct Hk1 as [t1 Ht1]. split; [done|]. split; [done|].
    split; [exists (t1 ++ t2); by rewrite Ht2, Ht1, app_assoc|done].
  - destruct (C35_cut_ref_deref s n leaves v Hnet Hm Hn Hv) as (c & w1 & w2 & F1 & F2 & Hw).
    rewrite E1 in F1. injection F1 as <- <-. rewrite E2 in F2. injection F2 as _ <-.
    destruct IH as (? & ? & ? & H); [done|done|intros y; rewrite Hw; apply Hv|]. split; [done|]. split; [done|].
    split; [done|]. intros y. by rewrite H, Hw.
Qed.
Theorem C35_evaluation s n leaves v c v1 s' v2 : network s -> moderate s -> n < size s -> in_range v ->
  deref_cut s n leaves v = Some (c, v1) -> trial leaves s v1 s' v2 ->
  exists v3, ref_cut s' n leaves v2 = Some (c, v3) /\ forall y, v3 y = v y.
Proof.
  intros Hnet Hm Hn Hv E1 Ht. destruct (C35_cut_deref_ref s n leaves v Hnet Hm Hn Hv) as (c' & w1 & w2 & F1 & F2 & Hw).
  rewrite E1 in F1. injection F1 as <- <-.
  assert (Hv1 : in_range v1).
  { destruct (deref_spec s (leaf_b leaves) Hnet (at_leaves leaves) ltac:(done) n v Hn (moderate_Z s Hm) Hv) as (E & v1' & EE & Hrel & _).
    unfold deref_cut in E1. rewrite E1 in EE. injection EE as _ <-. intros y. pose proof (Hrel y) as H. cbn beta in H.
    pose proof (Z.mod_pos_bound (Z.of_N (v y) - Z.of_nat (krefs s E y)) (2 ^ 32) ltac:(lia)). lia. }
  destruct (trial_frame _ _ _ _ _ Ht Hnet Hm Hv1) as (Hnet' & Hm' & Hp & Hv2).
  assert (Hsz : size s <= size s') by (destruct Hp as [t Ht']; unfold size; rewrite Ht', app_length; lia).
  assert (F3 : ref_cut s' n leaves v1 = Some (c, w2)).
  { eapply (ref_weaken _ s s' Hnet Hp (S (size s)) (S (size s'))); [lia|done|exact F2]. }
  destruct (ref_pw _ s' _ n v1 v2 c w2 ltac:(intros y; by rewrite Hv2) F3) as (v3 & E3 & H3).
  exists v3. split; [exact E3|]. intros y. by rewrite <- H3, Hw.
Qed.
Print Assumptions C35_evaluation.

(* Nonvacuity: inputs 1 2 3; 4 = 1&2, 5 = 4&3, 6 = 4&!3, 7 = !5&!6; outputs 7, 5 *)
Definition rd_demo : aig := build [OpPi; OpPi; OpPi; OpAnd (Sig 1 false) (Sig 2 false); OpAnd (Sig 3 false) (Sig 4 false);
  OpAnd (Sig 3 true) (Sig 4 false); OpAnd (Sig 5 true) (Sig 6 true); OpPo (Sig 7 true); OpPo (Sig 5 false)].
Definition rd_counts : values := fun y => N.of_nat (references rd_demo y).
Example rd_network : network rd_demo /\ moderate rd_demo /\ in_range rd_counts /\
  map rd_counts (seq 0 8) = [0; 1; 1; 2; 2; 2; 1; 1]%N.
Proof.
  split; [apply wf_network, reachable_wf, build_reachable; vm_compute; reflexivity|].
  split; [vm_compute; reflexivity|]. split; [|vm_compute; reflexivity].
  intros y. destruct (decide (y < 8)) as [Hy|Hy].
  - do 8 (destruct y as [|y]; [vm_compute; reflexivity|]). lia.
  - unfold rd_counts. rewrite refs_out_of_range; [reflexivity|apply reachable_wf, build_reachable; vm_compute; reflexivity|].
    replace (size rd_demo) with 8 by (vm_compute; reflexivity). lia.
Qed.
Example rd_run :
  match deref_cut rd_demo 7 [1; 2; 3] rd_counts with
  | Some (c, v1) => Some (c, map v1 (seq 0 8), match ref_cut rd_demo 7 [1; 2; 3] v1 with
      | Some (c', v2) => Some (c', map v2 (seq 0 8)) | None => None end)
  | None => None
  end = Some (2, [0; 1; 1; 1; 1; 1; 0; 1]%N, Some (2, [0; 1; 1; 2; 2; 2; 1; 1]%N)).
Proof. vm_compute. reflexivity. Qed.

(* ref_node_recursive_contained does not reference: it decrements the counts and
   always reports size 0. *)
Theorem C35_contained_refuted : exists s n v c b v', reachable s /\ n < size s /\ in_range v /\
  ref_node_recursive_contained s n n v = Some ((c, b), v') /\ c = 0 /\ exists y, (v' y < v y)%N.
Proof.
  destruct rd_network as (_ & _ & Hr & _).
  assert (Hs : reachable rd_demo) by (apply build_reachable; vm_compute; reflexivity).
  assert (Hn : 7 < size rd_demo) by (vm_compute; lia).
  assert (Hc : match ref_node_recursive_contained rd_demo 7 7 rd_counts with
      Some ((c, _), v') => bool_decide (c = 0) && N.ltb (v' 5) (rd_counts 5) | None => false end = true)
    by (vm_compute; reflexivity).
  revert Hr Hs Hn Hc. generalize rd_demo as s, rd_counts as v. intros s v Hr Hs Hn Hc.
  destruct (ref_node_recursive_contained s 7 7 v) as [[[c b] v']|] eqn:E; [|discriminate Hc].
  apply andb_true_iff in Hc as [H1 H2].
  exists s, 7, v, c, b, v'. split; [exact Hs|]. split; [exact Hn|]. split; [exact Hr|]. split; [exact E|].
  split; [by apply bool_decide_eq_true in H1|]. exists 5. by apply N.ltb_lt.
Qed.
Print Assumptions C35_contained_refuted.
