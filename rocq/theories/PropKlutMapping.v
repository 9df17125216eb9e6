(* C51: the LUT mapper and the commands map_fpga and lut_opt. *)
From Verif Require Import Base Aig AigSem AigProofs AigApi NetProofs Clean Tt TtCache Cut CutEnum Cnf PropCnf Choice ChoiceProofs ChoiceSat
  ChoiceCompute ChoiceComputeProofs PropChoiceCompute ChoiceClasses PropChoiceClasses Klut KlutSem Mapping MappingProofs ConvertProofs PropMapping KlutMapping KlutMappingProofs KlutDeriveProofs Demo.
From Coq Require Import QArith Qreduction.
Open Scope nat_scope.

(* ---- whatever the floating-point operations return ---- *)
(* If the mapper returns, the mapping is a cover with cells of 2 to cut_size
   leaves; the cells of a node with choices may come from any member of its class. *)
Theorem C51_cover A c cap max stale p m :
  (forall l, stale l ≡ₚ l) -> 0 < max -> reachable (cb c) -> (forall n m, link c n m -> m < n /\ alike (cb c) n m) ->
  (N.of_nat (8 + size (cb c) * (8 + 2 * cut_size (kcut p) + 6 * (max * max))) <= 2 ^ 31)%N ->
  klut_mapping A c cap max stale p = Some m ->
  cover (cb c) m lt /\
  (forall n l, root (cb c) m n -> cell_fanin m n = Some l -> 2 <= length l <= cut_size (kcut p)) /\
  (forall f, f ∈ pos (cb c) -> is_gate (cb c) (sidx f) -> has_mapping m = true).
Proof. apply klut_mapping_cover. Qed.
Print Assumptions C51_cover.

(* map_fpga and lut_opt: mapping, collapsing and converting back *)
Theorem C51_equivalent A c cap max stale p m nb :
  (forall l, stale l ≡ₚ l) -> 0 < max -> 0 < nb -> reachable (cb c) -> is_combinational (cb c) = true ->
  (forall n m, link c n m -> m < n /\ alike (cb c) n m) ->
  (N.of_nat (8 + size (cb c) * (8 + 2 * cut_size (kcut p) + 6 * (max * max))) <= 2 ^ 31)%N ->
  (N.of_nat (2 * size (cb c) + npo (cb c)) < 2 ^ 31)%N ->
  klut_mapping A c cap max stale p = Some m ->
  (exists f, f ∈ pos (cb c) /\ is_gate (cb c) (sidx f)) ->
  exists d d', choice_to_klut (cb c) m = Some (Some d) /\ kreachable d /\ knpi d = npi (cb c) /\ knpo d = npo (cb c) /\
    (forall env l, computes (cb c) env l <-> kcomputes d env l) /\
    convert_klut_to_aig nb d = Some d' /\ reachable d' /\ npi d' = npi (cb c) /\ npo d' = npo (cb c) /\
    forall env l, computes (cb c) env l <-> computes d' env l.
Proof.
  intros Hst Hmax Hnb R Hc Hl HB HB2 E (f & Hf & Hg).
  destruct (C51_cover A c cap max stale p m Hst Hmax R Hl HB E) as (Hcov & _ & Hmap). specialize (Hmap f Hf Hg).
  destruct (combinational _ Hc) as [Hci Hco].
  destruct (C19_choice_to_klut (cb c) m) as (d & Ed & Rd & Hp & Hk & Hpo & Hko & Hd); try done.
  - by apply wf_network, reachable_wf.
  - apply small_alive; [done|]. lia.
  - pose proof (Nat.mul_le_mono_l 2 (8 + 2 * cut_size (kcut p) + 6 * (max * max)) (size (cb c)) ltac:(lia)).
    pose proof (net_size (cb c) (wf_network _ (reachable_wf _ R))). assert (Hs : size (cb c) * 8 <= size (cb c) * (8 + 2 * cut_size (kcut p) + 6 * (max * max))) by (apply Nat.mul_le_mono_l; lia). lia.
  - destruct (convert_klut_spec nb d Hnb Rd ltac:(congruence)) as (d' & Ed' & Rd' & Hp' & _ & Hpo' & _ & Hd').
    exists d, d'. do 5 (split; [done|]). split; [done|]. split; [done|]. split; [congruence|]. split.
    + rewrite Hpo'. unfold kpos. rewrite take_length. lia.
    + intros env l. by rewrite Hd, Hd'.
Qed.
Print Assumptions C51_equivalent.

(* map_fpga -t 1: choices are computed first *)
Theorem C51_with_choices rnd both cps solve nw nb s c A cap max stale p m :
  swept s -> is_combinational s = true -> correct_oracle solve -> 0 < nb -> ccompute_choice rnd both cps solve s nw nb = Some c ->
  (forall l, stale l ≡ₚ l) -> 0 < max ->
  (N.of_nat (8 + size (cb c) * (8 + 2 * cut_size (kcut p) + 6 * (max * max))) <= 2 ^ 31)%N ->
  (N.of_nat (2 * size (cb c) + npo (cb c)) < 2 ^ 31)%N ->
  klut_mapping A c cap max stale p = Some m ->
  (exists f, f ∈ pos (cb c) /\ is_gate (cb c) (sidx f)) ->
  exists d, choice_to_klut (cb c) m = Some (Some d) /\ kreachable d /\
    forall env l, computes s env l <-> kcomputes d env l.
Proof.
  intros P Hcs Ho Hnb E Hst Hmax HB HB2 Em Hg.
  destruct (C50_sound rnd both cps solve nw nb s c P Ho Hnb E) as (_ & R & Hc & [_ Hsame] & Hl).
  destruct (C51_equivalent A c cap max stale p m 1 Hst Hmax ltac:(lia) R Hc Hl HB HB2 Em Hg) as (d & d' & Ed & Rd & _ & _ & Hd & _).
  exists d. split; [done|]. split; [done|]. intros env l. rewrite <- Hd.
  destruct (combinational _ Hc) as [_ Hco]. destruct (combinational _ Hcs) as [_ Hso].
  assert (Hp : pos (cb c) = outs (cb c)) by (unfold pos; rewrite Hco; apply firstn_all).
  assert (Hp' : pos s = outs s) by (unfold pos; rewrite Hso; apply firstn_all).
  unfold computes. rewrite Hp, Hp'. split.
  - intros (v & V & ->). destruct (net_valuation (cb c) env (wf_network _ (reachable_wf _ R))) as [w V']. exists w. split; [done|]. symmetry. by apply (Hsame env).
  - intros (w & V' & ->). destruct (net_valuation s env (sp_net _ P)) as [v V]. exists v. split; [done|]. by apply (Hsame env).
Qed.
Print Assumptions C51_with_choices.

(* The numbers of iterations given by the user, and the other options, are
   overwritten before they are used: only the cut parameters and bZeroGain matter. *)
Theorem C51_iterations_ignored A c cap max stale p p' : kcut p = kcut p' -> kZeroGain p = kZeroGain p' ->
  klut_mapping A c cap max stale p = klut_mapping A c cap max stale p'.
Proof.
  intros H1 H2. unfold klut_mapping, map_rounds. assert (E : init_parameters p = init_parameters p') by (unfold init_parameters; by rewrite H1, H2).
  by rewrite E.
Qed.
Print Assumptions C51_iterations_ignored.

(* ---- exact rational arithmetic ---- *)
Definition qlt (a b : Q) : bool := match Qcompare a b with Lt => true | _ => false end.
Definition qeq (a b : Q) : bool := match Qcompare a b with Eq => true | _ => false end.
Definition qops : fops := Fops Q 0%Q 1%Q (inject_Z (2 ^ 128)) (5 # 1000) (inject_Z (10 ^ 32))
  (fun a b => Qred (a + b)) (fun a b => Qred (a - b)) (fun a b => Qred (a * b)) (fun a b => Qred (a / b)) qlt qeq
  (fun n => inject_Z (Z.of_nat n)).
Definition kpar (k : nat) (l : N) : kparams := KParams (CutPs k l false) true false false false 1 2.
(* 3 = x&!y, 4 = x&!3, 5 = x&y = 4 *)
Definition ch_net : aig := build [OpPi; OpPi; OpAnd (Sig 1 false) (Sig 2 true); OpAnd (Sig 1 false) (Sig 3 true); OpAnd (Sig 1 false) (Sig 2 false); OpPo (Sig 5 false)].
Definition ch_cnet : cnet := Cnet ch_net [None; None; None; None; None; Some 4] [0; 1; 2; 3; 5; 5] (fun _ => 0) (fun _ => 0) 0.
Lemma ch_ok : reachable (cb ch_cnet) /\ is_combinational (cb ch_cnet) = true /\ forall n m, link ch_cnet n m -> m < n /\ alike (cb ch_cnet) n m.
Proof.
  split; [apply build_reachable; vm_compute; reflexivity|]. split; [vm_compute; reflexivity|]. intros n m H. unfold link in H.
  do 5 (destruct n as [|n]; [done|]). destruct n as [|n]; [|done]. injection H as <-. split; [lia|]. exists false. intros env v V.
  rewrite (val_gate _ _ _ V 5 (Sig 1 false) (Sig 2 false)), (val_gate _ _ _ V 4 (Sig 1 false) (Sig 3 true)) by (vm_compute; done).
  unfold sval. cbn [sidx scompl]. rewrite (val_gate _ _ _ V 3 (Sig 1 false) (Sig 2 true)) by (vm_compute; done). unfold sval. cbn [sidx scompl].
  by destruct (v 1), (v 2).
Qed.
(* With choices the trivial cut, whose cost is that of an input, becomes the best
   cut once the node's own cuts are removed by equal cuts of a class member: the
   cell of node 5 is {5}, and the assertion of derive_final_mapping fails. *)
Theorem C51_trivial_cut_refuted : exists c order t x,
  reachable (cb c) /\ is_combinational (cb c) = true /\ (forall n m, link c n m -> m < n /\ alike (cb c) n m) /\
  map_rounds qops c 7 12 id (kpar 6 10) = Some (order, t) /\ pos (cb c) = [Sig 5 false] /\ is_gate (cb c) 5 /\
  best qops t !! 5 = Some x /\ lvs x = [5] /\ klut_mapping qops c 7 12 id (kpar 6 10) = None.
Proof.
  assert (G : is_gate ch_net 5) by (exists (Sig 1 false), (Sig 2 false); vm_compute; done).
  assert (H : match map_rounds qops ch_cnet 7 12 id (kpar 6 10) with
    | Some (_, t) => match best qops t !! 5 with Some x => Some (lvs x) | None => None end | None => None end = Some [5]) by (vm_compute; reflexivity).
  assert (Hp : pos ch_net = [Sig 5 false]) by (vm_compute; reflexivity).
  assert (Hn : klut_mapping qops ch_cnet 7 12 id (kpar 6 10) = None) by (vm_compute; reflexivity).
  destruct ch_ok as (R & Hc & Hl). exists ch_cnet.
  revert H. generalize (map_rounds qops ch_cnet 7 12 id (kpar 6 10)). intros [[order t]|] H; [|discriminate H].
  destruct (best qops t !! 5) as [x|] eqn:Ex; [|discriminate H]. injection H as H.
  exists order, t, x. exact (conj R (conj Hc (conj Hl (conj eq_refl (conj Hp (conj G (conj Ex (conj H Hn)))))))).
Qed.
Print Assumptions C51_trivial_cut_refuted.

(* map_fpga accepts priority sizes up to 20, but a set holds 12 cuts: on a tree of
   eight inputs the set of the output is full when the trivial cut is added. *)
Definition tree_net : aig := build (repeat OpPi 8 ++ map (fun x => OpAnd (Sig x.1 false) (Sig x.2 false)) [(1, 2); (3, 4); (5, 6); (7, 8); (9, 10); (11, 12); (13, 14)] ++ [OpPo (Sig 15 false)]).
Theorem C51_priority_refuted : exists s, reachable s /\ is_combinational s = true /\
  klut_mapping qops (choice_of_aig s) 7 12 id (kpar 6 20) = None /\ is_Some (klut_mapping qops (choice_of_aig s) 7 12 id (kpar 6 10)).
Proof.
  exists tree_net. split; [apply build_reachable; vm_compute; reflexivity|]. split; [vm_compute; reflexivity|].
  split; [vm_compute; reflexivity|].
  assert (H : match klut_mapping qops (choice_of_aig tree_net) 7 12 id (kpar 6 10) with Some _ => true | None => false end = true) by (vm_compute; reflexivity).
  revert H. generalize (klut_mapping qops (choice_of_aig tree_net) 7 12 id (kpar 6 10)). intros [m|] H; [by exists m|discriminate H].
Qed.
Print Assumptions C51_priority_refuted.

(* No output is a gate: the mapper returns, but there is no network to
   dereference (the commands read the optional without a test). *)
Definition bare_net : aig := build [OpPi; OpPi; OpAnd (Sig 1 false) (Sig 2 false); OpPo (Sig 1 true)].
Theorem C51_unmapped_refuted : exists s m, reachable s /\ is_combinational s = true /\
  klut_mapping qops (choice_of_aig s) 7 12 id (kpar 6 10) = Some m /\ choice_to_klut s m = Some None.
Proof.
  exists bare_net. eexists. split; [apply build_reachable; vm_compute; reflexivity|]. split; [vm_compute; reflexivity|].
  split; vm_compute; reflexivity.
Qed.
Print Assumptions C51_unmapped_refuted.

(* ---- nonvacuity: a network with choices whose mapping goes through ---- *)
(* 4 = y&z, 5 = x&4, 6 = x&y, 7 = z&6 = 5 *)
Definition ok_net : aig := build [OpPi; OpPi; OpPi; OpAnd (Sig 2 false) (Sig 3 false); OpAnd (Sig 1 false) (Sig 4 false);
  OpAnd (Sig 1 false) (Sig 2 false); OpAnd (Sig 3 false) (Sig 6 false); OpPo (Sig 7 true); OpPo (Sig 6 false)].
Definition ok_cnet : cnet := Cnet ok_net [None; None; None; None; None; None; None; Some 5] [0; 1; 2; 3; 4; 7; 6; 7] (fun _ => 0) (fun _ => 0) 0.
Example C51_nonvacuous : (forall l : list (cut (gdata qops)), id l ≡ₚ l) /\ reachable (cb ok_cnet) /\ is_combinational (cb ok_cnet) = true /\ link ok_cnet 7 5 /\
  (forall n m, link ok_cnet n m -> m < n /\ alike (cb ok_cnet) n m) /\
  (N.of_nat (8 + size (cb ok_cnet) * (8 + 2 * cut_size (kcut (kpar 3 10)) + 6 * (12 * 12))) <= 2 ^ 31)%N /\
  (exists f, f ∈ pos (cb ok_cnet) /\ is_gate (cb ok_cnet) (sidx f)) /\
  match klut_mapping qops ok_cnet 7 12 id (kpar 3 10) with
  | Some m => cell_fanin m 7 = Some [3; 6] /\ cell_fanin m 6 = Some [1; 2] /\ num_cells m = 2%N
  | None => False
  end.
Proof.
  split; [done|]. split; [apply build_reachable; vm_compute; reflexivity|]. split; [vm_compute; reflexivity|]. split; [done|]. split.
  - intros n m H. unfold link in H. do 7 (destruct n as [|n]; [done|]). destruct n as [|n]; [|done]. injection H as <-. split; [lia|].
    exists false. intros env v V.
    rewrite (val_gate _ _ _ V 7 (Sig 3 false) (Sig 6 false)), (val_gate _ _ _ V 5 (Sig 1 false) (Sig 4 false)) by (vm_compute; done).
    unfold sval. cbn [sidx scompl].
    rewrite (val_gate _ _ _ V 6 (Sig 1 false) (Sig 2 false)), (val_gate _ _ _ V 4 (Sig 2 false) (Sig 3 false)) by (vm_compute; done).
    unfold sval. cbn [sidx scompl]. by destruct (v 1), (v 2), (v 3).
  - split; [vm_compute; congruence|]. split; [exists (Sig 7 true); split; [vm_compute; left|exists (Sig 3 false), (Sig 6 false); vm_compute; done]|].
    vm_compute. split; [|split]; reflexivity.
Qed.
