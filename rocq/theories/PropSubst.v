(* C10, C11: substitution and deletion of nodes. *)
From Verif Require Import Base Aig AigSem AigHash AigProofs AigApi AigReach Demo Clean NetProofs CleanProofs NetDemo
  Subst SubstProofs TakeOutProofs.

(* ---- C10: substitute_node ---- *)
(* Whenever a substitution by a signal of the same function returns, the inputs,
   registers and the number of outputs are unchanged, and every assignment of
   node values that satisfied the network before satisfies it afterwards, with
   the same value at every output (primary outputs and register inputs). *)
Theorem C10_substitute_values fuel s old new s' :
  equivalent s old new -> substitute_node fuel old new s = Some (tt, s') ->
  forall env v, valuation s env v ->
    valuation s' env v /\ map (sval v) (outs s') = map (sval v) (outs s).
Proof.
  intros He H env v V. eapply subst_loop_val; [exact H|done|]. repeat constructor. by apply (He env).
Qed.
Print Assumptions C10_substitute_values.

(* Hence, unless the substitution made the network cyclic, the result is a
   network in which every output computes the same function as before. *)
Theorem C10_substitute_preserves fuel s old new s' :
  network s -> valid s new -> equivalent s old new ->
  substitute_node fuel old new s = Some (tt, s') ->
  ins s' = ins s /\ npi s' = npi s /\ npo s' = npo s /\ lat s' = lat s /\ size s' = size s /\
  length (outs s') = length (outs s) /\
  (acyclic s' -> network s' /\ forall env l, computes s' env l <-> computes s env l).
Proof.
  intros W Hv He H.
  destruct (subst_loop_shape fuel [(old, new)] s s' H (network_shape s W)) as [HS HF]; [by repeat constructor|].
  pose proof HF as (Ei & Ep & Eo & El & Es & Elo). repeat (split; [done|]). intros Hac.
  assert (W' : network s') by (by apply shape_network). split; [done|].
  assert (Hdir : forall env l, computes s env l -> computes s' env l).
  { intros env l (v & V & ->). destruct (C10_substitute_values fuel s old new s' He H env v V) as [V' E].
    exists v. split; [done|]. unfold pos. rewrite Eo, <- !firstn_map, E. done. }
  intros env l. split; [|apply Hdir]. intros Hl.
  destruct (net_valuation s env W) as [v V].
  assert (Hs : computes s env (map (sval v) (pos s))) by (by exists v).
  by rewrite (computes_unique s' env l _ W' Hl (Hdir _ _ Hs)).
Qed.
Print Assumptions C10_substitute_preserves.

(* A substitution that ends after one round (no gate became constant, a copy of
   its fanin, or equal to another gate) does not make the network cyclic, if the
   new signal does not depend on the old node. *)
Theorem C10_substitute_once s old new s' :
  network s -> valid s new -> equivalent s old new -> ~ rtc (fanin s) (sidx new) old ->
  substitute_node 1 old new s = Some (tt, s') ->
  network s' /\ forall env l, computes s' env l <-> computes s env l.
Proof.
  intros W Hv He Hno H. eapply C10_substitute_preserves; [exact W|exact Hv|exact He|exact H|].
  eapply subst_once_acyclic; [exact H|exact (net_acyclic s W)|exact Hno].
Qed.
Print Assumptions C10_substitute_once.

(* ---- concrete substitutions ---- *)
Definition a_ (n : nat) : signal := Sig n false.
Definition n_ (n : nat) : signal := Sig n true.

(* a set of nodes closed under fanins contains everything its members depend on *)
Definition closed (s : aig) (l : list nat) : bool :=
  forallb (fun n => forallb (fun m => bool_decide (m ∈ l)) (fanins s n)) l.
Lemma closed_rtc s l n m : closed s l = true -> n ∈ l -> rtc (fanin s) n m -> m ∈ l.
Proof.
  intros Hc Hn Hr. revert Hn. induction Hr as [|x y z Hxy _ IH]; [done|]. intros Hx. apply IH.
  unfold closed in Hc. rewrite forallb_forall in Hc.
  specialize (Hc x (proj1 (elem_of_list_In _ _) Hx)). rewrite forallb_forall in Hc.
  apply fanins_spec in Hxy. specialize (Hc y (proj1 (elem_of_list_In _ _) Hxy)).
  by apply bool_decide_eq_true in Hc.
Qed.

Definition live_check (s : aig) (n : nat) : bool :=
  match ks s !! n with
  | Some (a, b) => bool_decide (n <> 0) && bool_decide (a <> b) && bool_decide (is_dead s n = Some false)
  | None => false
  end.
Lemma live_check_sound s n : live_check s n = true -> live_gate s n.
Proof.
  unfold live_check. destruct (ks s !! n) as [[a b]|] eqn:E; [|done].
  rewrite !andb_true_iff, !bool_decide_eq_true. intros [[? ?] ?]. split; [by exists a, b|done].
Qed.

Definition subst_result (fuel : nat) (old : nat) (new : signal) (s : aig) : aig :=
  match substitute_node fuel old new s with Some (_, s') => s' | None => s end.

Lemma edited_check s old new fuel l : edited s ->
  live_check s old = true -> bool_decide (sidx new < size s) = true ->
  bool_decide (is_dead s (sidx new) = Some false) = true ->
  equivalent s old new -> closed s l = true -> bool_decide (sidx new ∈ l) = true ->
  bool_decide (old ∈ l) = false -> bool_decide (is_Some (substitute_node fuel old new s)) = true ->
  edited (subst_result fuel old new s).
Proof.
  intros He Hl Hv%bool_decide_eq_true Hd%bool_decide_eq_true Heq Hc Hn%bool_decide_eq_true
    Ho%bool_decide_eq_false Hs%bool_decide_eq_true.
  unfold subst_result. destruct (substitute_node fuel old new s) as [[[] s']|] eqn:E; [|by destruct Hs].
  eapply edited_subst; [exact He|by apply live_check_sound|exact Hv|exact Hd|exact Heq| |exact E].
  intros Hr. apply Ho. by eapply closed_rtc.
Qed.

(* 3 = x & y, 4 = x & 3, 5 = 3 & z, 6 = 4 & !z: replace 4 by the equivalent 3 *)
Definition once_ops : list op :=
  [OpPi; OpPi; OpPi; OpAnd (a_ 1) (a_ 2); OpAnd (a_ 1) (a_ 4); OpAnd (a_ 4) (a_ 3); OpAnd (a_ 5) (n_ 3);
   OpPo (a_ 6); OpPo (n_ 7); OpPo (n_ 5)].
Definition once : aig := build once_ops.
Lemma once_reachable : reachable once.
Proof. apply build_reachable. vm_compute. reflexivity. Qed.
Lemma once_equivalent : equivalent once 5 (a_ 4).
Proof.
  intros env v V.
  pose proof (val_gate _ _ _ V 4 (a_ 1) (a_ 2) ltac:(vm_compute; reflexivity) ltac:(done) ltac:(done)) as H4.
  pose proof (val_gate _ _ _ V 5 (a_ 1) (a_ 4) ltac:(vm_compute; reflexivity) ltac:(done) ltac:(done)) as H5.
  clear V. unfold sval in *. cbn in *. rewrite H5, H4. by destruct (v 1), (v 2).
Qed.
Example C10_once_nonvacuous :
  network once /\ equivalent once 5 (a_ 4) /\ ~ rtc (fanin once) 4 5 /\
  exists s', substitute_node 1 5 (a_ 4) once = Some (tt, s') /\
    outs s' = [a_ 6; n_ 7; n_ 4] /\ ks s' !! 7 = Some (n_ 3, a_ 4) /\ dead s' 5.
Proof.
  split; [apply wf_network, reachable_wf, once_reachable|]. split; [apply once_equivalent|]. split.
  - intros Hr. apply (closed_rtc once [4; 1; 2]) in Hr; [|vm_compute; reflexivity|constructor].
    rewrite !elem_of_cons, elem_of_nil in Hr. lia.
  - eexists. split; [vm_compute; reflexivity|]. done.
Qed.

(* ---- what substitutions can break ---- *)
(* An output can end up driven by a deleted gate: 3 = !x & y, 4 = x & !3,
   5 = y & !4.  4 is x; replacing it turns 5 into a copy of 3, but 3 is deleted
   with 4 before the output moves to it. *)
Definition lost_ops : list op :=
  [OpPi; OpPi; OpAnd (n_ 1) (a_ 2); OpAnd (a_ 1) (n_ 3); OpAnd (a_ 2) (n_ 4); OpPo (a_ 5)].
Definition lost : aig := build lost_ops.
Lemma lost_edited : edited (subst_result 5 4 (a_ 1) lost).
Proof.
  apply (edited_check _ _ _ _ [1]); try (vm_compute; reflexivity).
  - apply edited_new, build_reachable. vm_compute. reflexivity.
  - intros env v V.
    pose proof (val_gate _ _ _ V 3 (n_ 1) (a_ 2) ltac:(vm_compute; reflexivity) ltac:(done) ltac:(done)) as H3.
    pose proof (val_gate _ _ _ V 4 (a_ 1) (n_ 3) ltac:(vm_compute; reflexivity) ltac:(done) ltac:(done)) as H4.
    clear V. unfold sval in *. cbn in *. rewrite H4, H3. by destruct (v 1), (v 2).
Qed.
Theorem C10_dead_output_refuted : exists s f, edited s /\ f ∈ outs s /\ dead s (sidx f).
Proof.
  exists (subst_result 5 4 (a_ 1) lost), (a_ 3). split; [apply lost_edited|].
  split; [|by vm_compute]. apply (elem_of_list_lookup_2 _ 0). vm_compute. reflexivity.
Qed.
Print Assumptions C10_dead_output_refuted.

(* A deleted gate can stay in the hash table, so that a later create_and returns
   it: 3 = x & y, 4 = x & 3, 5 = x & 4.  Replacing 4 by 3 gives 5 the fanins of
   4; deleting 4 then removes the table entry of 5 instead of that of 4. *)
Definition zombie_ops : list op :=
  [OpPi; OpPi; OpAnd (a_ 1) (a_ 2); OpAnd (a_ 1) (a_ 3); OpAnd (a_ 1) (a_ 4); OpPo (a_ 4); OpPo (a_ 5)].
Definition zombie : aig := build zombie_ops.
Lemma zombie_edited : edited (subst_result 5 4 (a_ 3) zombie).
Proof.
  apply (edited_check _ _ _ _ [3; 1; 2]); try (vm_compute; reflexivity).
  - apply edited_new, build_reachable. vm_compute. reflexivity.
  - intros env v V.
    pose proof (val_gate _ _ _ V 3 (a_ 1) (a_ 2) ltac:(vm_compute; reflexivity) ltac:(done) ltac:(done)) as H3.
    pose proof (val_gate _ _ _ V 4 (a_ 1) (a_ 3) ltac:(vm_compute; reflexivity) ltac:(done) ltac:(done)) as H4.
    clear V. unfold sval in *. cbn in *. rewrite H4, H3. by destruct (v 1), (v 2).
Qed.
Theorem C10_dead_hit_refuted : exists s a b f,
  edited s /\ usable s a /\ usable s b /\ create_and a b s = Some (f, s) /\ dead s (sidx f) /\
  exists m, live_gate s m /\ ks s !! m = Some (a, b).
Proof.
  exists (subst_result 5 4 (a_ 3) zombie), (a_ 1), (a_ 3), (a_ 4). split; [apply zombie_edited|].
  split; [split; [by apply (proj1 (Nat.ltb_lt _ _)); vm_compute|by vm_compute]|].
  split; [split; [by apply (proj1 (Nat.ltb_lt _ _)); vm_compute|by vm_compute]|].
  split; [vm_compute; reflexivity|]. split; [by vm_compute|].
  exists 5. split; [apply live_check_sound; by vm_compute|vm_compute; reflexivity].
Qed.
Print Assumptions C10_dead_hit_refuted.

(* Two substitutions by equivalent signals that do not depend on the replaced
   nodes can make the network cyclic, with the cycle feeding an output.  Node 7
   is constant false.  The first substitution moves the fanouts of 10 to the
   younger 19.  In the second, the cascade of replacements redirects 14 to 17
   after 17 has been merged with 11 and deleted; 17 still depends on 14. *)
Definition loop_ops : list op :=
  [OpPi; OpPi; OpPi; OpPi; OpPi;
   OpAnd (n_ 1) (a_ 2); OpAnd (a_ 1) (a_ 6); OpAnd (a_ 1) (n_ 2); OpAnd (a_ 2) (a_ 8);
   OpAnd (a_ 3) (n_ 9); OpAnd (a_ 3) (a_ 4); OpAnd (a_ 10) (a_ 4); OpAnd (a_ 12) (n_ 7); OpAnd (a_ 13) (a_ 5);
   OpAnd (a_ 10) (n_ 3); OpAnd (a_ 14) (a_ 15); OpAnd (a_ 11) (n_ 16); OpAnd (a_ 17) (n_ 7); OpAnd (a_ 3) (n_ 7);
   OpPo (a_ 14); OpPo (a_ 18)].
Definition loop0 : aig := build loop_ops.
Definition loop1 : aig := subst_result 5 10 (a_ 19) loop0.
Definition loop2 : aig := subst_result 20 7 (Sig 0 false) loop1.

Lemma loop1_edited : edited loop1.
Proof.
  apply (edited_check _ _ _ _ [19; 3; 7; 1; 6; 2]); try (vm_compute; reflexivity).
  - apply edited_new, build_reachable. vm_compute. reflexivity.
  - intros env v V.
    pose proof (val_gate _ _ _ V 6 (n_ 1) (a_ 2) ltac:(vm_compute; reflexivity) ltac:(done) ltac:(done)) as H6.
    pose proof (val_gate _ _ _ V 7 (a_ 1) (a_ 6) ltac:(vm_compute; reflexivity) ltac:(done) ltac:(done)) as H7.
    pose proof (val_gate _ _ _ V 8 (a_ 1) (n_ 2) ltac:(vm_compute; reflexivity) ltac:(done) ltac:(done)) as H8.
    pose proof (val_gate _ _ _ V 9 (a_ 2) (a_ 8) ltac:(vm_compute; reflexivity) ltac:(done) ltac:(done)) as H9.
    pose proof (val_gate _ _ _ V 10 (a_ 3) (n_ 9) ltac:(vm_compute; reflexivity) ltac:(done) ltac:(done)) as H10.
    pose proof (val_gate _ _ _ V 19 (a_ 3) (n_ 7) ltac:(vm_compute; reflexivity) ltac:(done) ltac:(done)) as H19.
    clear V. unfold sval in *. cbn in *. rewrite H10, H19, H9, H7, H8, H6. by destruct (v 1), (v 2), (v 3).
Qed.
Lemma loop2_edited : edited loop2.
Proof.
  apply (edited_check _ _ _ _ [0]); try (vm_compute; reflexivity).
  - apply loop1_edited.
  - intros env v V.
    pose proof (val_gate _ _ _ V 6 (n_ 1) (a_ 2) ltac:(vm_compute; reflexivity) ltac:(done) ltac:(done)) as H6.
    pose proof (val_gate _ _ _ V 7 (a_ 1) (a_ 6) ltac:(vm_compute; reflexivity) ltac:(done) ltac:(done)) as H7.
    pose proof (val_const _ _ _ V) as H0.
    clear V. unfold sval in *. cbn in *. rewrite H0, H7, H6. by destruct (v 1), (v 2).
Qed.
Theorem C10_cycle_refuted : exists s f, edited s /\ f ∈ outs s /\ live_gate s (sidx f) /\
  tc (fanin s) (sidx f) (sidx f).
Proof.
  exists loop2, (a_ 14). split; [apply loop2_edited|].
  split; [apply (elem_of_list_lookup_2 _ 0); vm_compute; reflexivity|].
  split; [apply live_check_sound; by vm_compute|]. cbn [sidx a_].
  apply tc_l with 17; [|apply tc_l with 16; [|apply tc_once]].
  - exists (a_ 5), (a_ 17). split; [vm_compute; reflexivity|]. split; [done|]. split; [done|]. by right.
  - exists (a_ 11), (n_ 16). split; [vm_compute; reflexivity|]. split; [done|]. split; [done|]. by right.
  - exists (a_ 14), (a_ 15). split; [vm_compute; reflexivity|]. split; [done|]. split; [done|]. by left.
Qed.
Print Assumptions C10_cycle_refuted.

(* the substitution that closes the cycle starts from an acyclic network *)
Example C10_preserves_nonvacuous :
  network loop1 /\ equivalent loop1 7 (Sig 0 false) /\ valid loop1 (Sig 0 false) /\
  (exists s', substitute_node 20 7 (Sig 0 false) loop1 = Some (tt, s') /\ outs s' = [a_ 14; a_ 17]).
Proof.
  split; [|split; [|split]].
  - apply (net_check_sound _ (fun n => if decide (n = 19) then 80 else 10 * n + if decide (n < 12) then 0 else 100)).
    vm_compute. reflexivity.
  - intros env v V.
    pose proof (val_gate _ _ _ V 6 (n_ 1) (a_ 2) ltac:(vm_compute; reflexivity) ltac:(done) ltac:(done)) as H6.
    pose proof (val_gate _ _ _ V 7 (a_ 1) (a_ 6) ltac:(vm_compute; reflexivity) ltac:(done) ltac:(done)) as H7.
    pose proof (val_const _ _ _ V) as H0.
    clear V. unfold sval in *. cbn in *. rewrite H0, H7, H6. by destruct (v 1), (v 2).
  - apply (proj1 (Nat.ltb_lt _ _)). by vm_compute.
  - eexists. split; [vm_compute; reflexivity|]. done.
Qed.

(* Replacing a node by an equivalent signal that depends on it: 3 = x & y,
   4 = x & 3.  4 becomes its own fanin. *)
Definition self_ops : list op :=
  [OpPi; OpPi; OpAnd (a_ 1) (a_ 2); OpAnd (a_ 1) (a_ 3); OpPo (a_ 4)].
Definition self : aig := build self_ops.
Theorem C10_dependent_refuted : exists s old new s', reachable s /\ live_gate s old /\ usable s new /\
  equivalent s old new /\ substitute_node 5 old new s = Some (tt, s') /\ fanin s' (sidx new) (sidx new).
Proof.
  exists self, 3, (a_ 4), (subst_result 5 3 (a_ 4) self).
  split; [apply build_reachable; by vm_compute|].
  split; [apply live_check_sound; by vm_compute|].
  split; [split; [apply (proj1 (Nat.ltb_lt _ _)); by vm_compute|by vm_compute]|].
  split.
  - intros env v V.
    pose proof (val_gate _ _ _ V 3 (a_ 1) (a_ 2) ltac:(vm_compute; reflexivity) ltac:(done) ltac:(done)) as H3.
    pose proof (val_gate _ _ _ V 4 (a_ 1) (a_ 3) ltac:(vm_compute; reflexivity) ltac:(done) ltac:(done)) as H4.
    clear V. unfold sval in *. cbn in *. rewrite H4, H3. by destruct (v 1), (v 2).
  - split; [vm_compute; reflexivity|]. exists (a_ 1), (a_ 4). split; [vm_compute; reflexivity|].
    split; [done|]. split; [done|]. by right.
Qed.
Print Assumptions C10_dependent_refuted.

(* ---- C11: take_out_node ---- *)
(* In every network obtained by creation calls and deletions of unreferenced
   gates: the fanout counter of each remaining node is its number of references
   from remaining gates and outputs, deleted gates are not referenced, and only
   gates are ever deleted. *)
Theorem C11_counters_exact s n : pruned s -> n < size s ->
  (is_dead s n = Some false /\ fanout_size s n = Some (N.of_nat (live_refs s n))) \/
  (is_dead s n = Some true /\ fanout_size s n = Some 0%N /\ live_refs s n = 0 /\ is_gate s n).
Proof.
  intros HB%pruned_booked Hn. destruct (booked_dead_dec s [] n HB Hn) as [[] Hd].
  - right. destruct (booked_dead s [] n HB Hd) as (Hf & Hg & Ht). rewrite total_nil in Ht.
    split; [done|]. split; [|done]. unfold fanout_size. by rewrite Hf.
  - left. destruct (booked_live s [] n HB Hd) as [Hf Hlt]. rewrite total_nil in Hf, Hlt.
    split; [done|]. unfold fanout_size. rewrite Hf. cbn [mbind option_bind]. by rewrite N.mod_small.
Qed.
Print Assumptions C11_counters_exact.

(* The hash table holds exactly the remaining gates, and creating a gate never
   returns a deleted one. *)
Theorem C11_table_exact s a b : pruned s -> a <> b ->
  exists r, hash_find (a, b) s = Some r /\
    (r <> 0 -> live_gate s r /\ ks s !! r = Some (a, b)) /\
    (r = 0 -> forall m, live_gate s m -> ks s !! m <> Some (a, b)).
Proof.
  intros HB%pruned_booked Hab. destruct (booked_find s a b HB Hab) as (r & Hr & [(? & ? & ?)|(-> & Hno)]).
  - exists r. done.
  - exists 0. done.
Qed.
Print Assumptions C11_table_exact.

Theorem C11_create_alive s a b f s' : pruned s -> usable s a -> usable s b -> small s' ->
  create_and a b s = Some (f, s') -> is_dead s' (sidx f) = Some false.
Proof. intros HB%pruned_booked Ha Hb Hs H. apply (booked_create_and s a b f s' HB Ha Hb H Hs). Qed.
Print Assumptions C11_create_alive.

(* Deleting an unreferenced gate always succeeds, changes nothing but the
   deletion marks, and deletes exactly the gate and, transitively, the gates
   whose last references came from deleted gates. *)
Theorem C11_take_out_exact s n : pruned s -> live_gate s n -> live_refs s n = 0 ->
  exists s', take_out_node n s = Some (tt, s') /\
    ks s' = ks s /\ ins s' = ins s /\ outs s' = outs s /\ npi s' = npi s /\ npo s' = npo s /\ lat s' = lat s /\
    dead s' n /\ (forall m, dead s m -> dead s' m) /\
    forall m, m <> n -> live_gate s m ->
      (dead s' m <-> live_refs s' m = 0 /\ exists d, live_gate s d /\ dead s' d /\ fanin s d m).
Proof.
  intros HB%pruned_booked Hl Hr. destruct (take_out_node_correct s n HB Hl Hr) as (s' & E & HK & Hd).
  destruct HK as [K1 K2 K3 K4 K5]. destruct K2 as [E1 E2 E3 E4 E5 E6 _ _].
  exists s'. repeat (split; [done|]). intros m Hm Hlm. split.
  - intros Hdm. split.
    + destruct (booked_dead s' [] m K1 Hdm) as (_ & _ & Ht). by rewrite total_nil in Ht.
    + destruct (K4 m Hlm Hdm) as [?|?]; done.
  - intros [Hz (d & Hd1 & Hd2 & Hd3)]. destruct (K5 d m Hd1 Hd2 Hd3 Hlm (fun F => F)) as [?|Ht]; [done|].
    rewrite total_nil in Ht. lia.
Qed.
Print Assumptions C11_take_out_exact.

(* Every gate outside the dependencies of the deleted one survives, and so does
   everything an output or a surviving gate depends on. *)
Theorem C11_survivors s n s' : pruned s -> live_gate s n -> live_refs s n = 0 ->
  take_out_node n s = Some (tt, s') -> forall m,
  (live_gate s m -> dead s' m -> rtc (fanin s) n m) /\
  (forall f, f ∈ outs s -> rtc (fanin s) (sidx f) m -> ~ dead s' m) /\
  (forall g, live_gate s' g -> rtc (fanin s) g m -> ~ dead s' m).
Proof.
  intros HP Hl Hr H. pose proof (pruned_booked s HP) as HB.
  destruct (take_out_node_correct s n HB Hl Hr) as (s1 & E & HK & Hd).
  rewrite H in E. injection E as <-. destruct HK as [K1 K2 K3 K4 K5].
  pose proof (sn_ks _ _ K2) as Ek. pose proof (sn_outs _ _ K2) as Eo.
  assert (Hdown : forall g m, rtc (fanin s) g m -> ~ dead s' g -> ~ dead s' m).
  { intros g m Hgm. induction Hgm as [|x y z Hxy _ IH]; [done|]. intros Hx. apply IH. intros Hy.
    destruct (booked_dead s' [] y K1 Hy) as (_ & _ & Ht). rewrite total_nil in Ht.
    unfold live_refs in Ht. apply Nat.eq_add_0 in Ht as [Ht _].
    destruct Hxy as (a & b & Hk & Hx0 & Hab & Hm).
    assert (Hxs : x < size s') by (unfold size; rewrite Ek; by eapply lookup_lt_Some).
    apply (sum_zero _ _ x) in Ht; [|apply elem_of_seq; lia]. rewrite Ek, Hk in Ht.
    destruct (booked_dead_dec s' [] x K1 Hxs) as [[] Hdx]; [done|]. rewrite Hdx in Ht.
    unfold gate_refs, count_sig in Ht. cbn in Ht. rewrite decide_False in Ht by done.
    destruct Hm as [-> | ->]; [rewrite decide_True in Ht by done|rewrite (decide_True (P := sidx b = sidx b)) in Ht by done]; lia. }
  intros m. split; [|split].
  - assert (Hgo : forall k m, size s - m <= k -> live_gate s m -> dead s' m -> rtc (fanin s) n m).
    { clear m. induction k as [|k IH]; intros m Hk Hlm Hdm.
      - destruct Hlm as [(x & y & Hm & _) _]. apply lookup_lt_Some in Hm. unfold size in Hk. lia.
      - destruct (K4 m Hlm Hdm) as [->|(d & Hd1 & Hd2 & Hd3)]; [constructor|].
        apply rtc_r with d; [|done]. apply IH; [|done|done]. pose proof (pruned_order s HP d m Hd3). lia. }
    eauto.
  - intros f Hf Hfm. apply (Hdown _ _ Hfm). intros Hdf.
    destruct (booked_dead s' [] _ K1 Hdf) as (_ & _ & Ht). rewrite total_nil in Ht.
    unfold live_refs in Ht. apply Nat.eq_add_0 in Ht as [_ Ht]. rewrite Eo in Ht.
    apply elem_of_list_lookup in Hf as [i Hi].
    rewrite <- (take_drop_middle _ _ _ Hi), map_app, sum_list_app in Ht. cbn in Ht. unfold count_sig at 2 in Ht.
    rewrite decide_True in Ht by done. lia.
  - intros g [_ Hg] Hgm. apply (Hdown _ _ Hgm). intros Hdg. by eapply dead_not_false.
Qed.
Print Assumptions C11_survivors.

(* 4 = x & y, 5 = !4 & z, 6 = 5 & x (unreferenced); 4 also drives an output *)
Definition after {A} (m : M aig A) (s : aig) : aig := match m s with Some (_, s') => s' | None => s end.
Definition cut0 : aig :=
  after (create_po (n_ 4)) (after (create_and (a_ 5) (a_ 1)) (after (create_and (n_ 4) (a_ 3))
    (after (create_and (a_ 1) (a_ 2)) (after create_pi (after create_pi (after create_pi (aig_init_n 1))))))).
Definition small_check (s : aig) : bool := bool_decide (2 * N.of_nat (size s) + N.of_nat (length (outs s)) < 2 ^ 31)%N.
Lemma small_check_sound s : small_check s = true -> small s.
Proof. unfold small_check. by rewrite bool_decide_eq_true. Qed.
Definition usable_check (s : aig) (f : signal) : bool :=
  bool_decide (sidx f < size s) && bool_decide (is_dead s (sidx f) = Some false).
Lemma usable_check_sound s f : usable_check s f = true -> usable s f.
Proof. unfold usable_check, usable, valid. by rewrite andb_true_iff, !bool_decide_eq_true. Qed.

Lemma pruned_pi_run s : pruned s -> bool_decide (is_Some (create_pi s)) = true ->
  small_check (after create_pi s) = true -> pruned (after create_pi s).
Proof.
  intros HP H Hs%small_check_sound. revert Hs. unfold after.
  destruct (create_pi s) as [[x s']|] eqn:E; [|done]. by apply pruned_pi with s x.
Qed.
Lemma pruned_po_run s f : pruned s -> usable_check s f = true ->
  small_check (after (create_po f) s) = true -> pruned (after (create_po f) s).
Proof.
  intros HP Hu%usable_check_sound Hs%small_check_sound. revert Hs. unfold after.
  destruct (create_po f s) as [[x s']|] eqn:E; [|done]. by apply pruned_po with s f x.
Qed.
Lemma pruned_and_run s a b : pruned s -> usable_check s a = true -> usable_check s b = true ->
  small_check (after (create_and a b) s) = true -> pruned (after (create_and a b) s).
Proof.
  intros HP Ha%usable_check_sound Hb%usable_check_sound Hs%small_check_sound. revert Hs. unfold after.
  destruct (create_and a b s) as [[x s']|] eqn:E; [|done]. by apply pruned_and with s a b x.
Qed.
Lemma pruned_out_run s n : pruned s -> live_check s n = true -> bool_decide (live_refs s n = 0) = true ->
  pruned (after (take_out_node n) s).
Proof.
  intros HP Hl%live_check_sound Hr%bool_decide_eq_true. unfold after.
  destruct (take_out_node n s) as [[[] s']|] eqn:E; [|done]. by apply pruned_out with s n.
Qed.
Lemma cut0_pruned : pruned cut0.
Proof.
  apply pruned_po_run; [|by vm_compute..]. repeat (apply pruned_and_run; [|by vm_compute..]).
  repeat (apply pruned_pi_run; [|by vm_compute..]). apply pruned_init. lia.
Qed.
Example C11_nonvacuous : exists s',
  live_gate cut0 6 /\ live_refs cut0 6 = 0 /\ take_out_node 6 cut0 = Some (tt, s') /\
  pruned s' /\ dead s' 6 /\ dead s' 5 /\ is_dead s' 4 = Some false /\ live_refs cut0 4 = 2 /\
  fanout_size s' 4 = Some 1%N /\ fanout_size s' 3 = Some 0%N /\
  hash_find (a_ 3, n_ 4) s' = Some 0 /\ hash_find (a_ 1, a_ 2) s' = Some 4.
Proof.
  exists (after (take_out_node 6) cut0).
  split; [apply live_check_sound; by vm_compute|]. split; [by vm_compute|]. split; [by vm_compute|].
  split; [apply pruned_out_run; [apply cut0_pruned|by vm_compute..]|]. repeat split; by vm_compute.
Qed.
(* a deleted gate is created afresh *)
Example C11_create_nonvacuous :
  let s := after (take_out_node 6) cut0 in
  usable s (a_ 3) /\ usable s (n_ 4) /\ exists s', create_and (a_ 3) (n_ 4) s = Some (a_ 7, s') /\ small s' /\
    dead s' 5 /\ is_dead s' 7 = Some false.
Proof.
  cbv zeta. split; [apply usable_check_sound; by vm_compute|]. split; [apply usable_check_sound; by vm_compute|].
  eexists. split; [vm_compute; reflexivity|]. split; [apply small_check_sound; by vm_compute|]. by vm_compute.
Qed.
