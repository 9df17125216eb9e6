(* Properties C18, C19 and C46: mapped networks and conversions between AIGs
   and LUT networks.  Specification vocabulary: end of Mapping.v. *)
From Verif Require Import Base Aig AigSem AigHash AigProofs AigApi AigReach Topo TopoProofs Clean NetProofs CleanProofs Demo NetDemo
  Tt TtProofs TtCache TtCacheProofs Klut KlutSem KlutProofs PropKlut Isop IsopProofs Cnf CnfProofs PropCnf Mapping MappingProofs CollapseProofs ConvertProofs.

(* ---- C18: the mapping view is a map from nodes to cells ---- *)
(* For every history of calls with nodes of the network, as long as the packed
   vector fits 32-bit indices and the function cache 31-bit ones: exactly the
   nodes added and not removed or cleared since are cell roots, num_cells counts
   them, their leaves are those last added, and cell_function is the function
   last set (initially constant false). *)
Theorem C18_mapping_view size ops : Forall (mop_ok size) ops ->
  (N.of_nat (size + sum_list (map mop_words ops)) < 2 ^ 32)%N ->
  (N.of_nat (1 + sum_list (map mop_tables ops)) <= 2 ^ 31)%N ->
  exists m, mrun size ops (mv_init size) = Some m /\
    num_cells m = N.of_nat (length (filter (fun n => is_Some (cells ops n)) (seq 0 size))) /\
    (has_mapping m = true <-> exists n, n < size /\ is_Some (cells ops n)) /\
    forall n, n < size ->
      is_cell_root m n = Some (bool_decide (is_Some (cells ops n))) /\
      (forall l, cells ops n = Some l -> cell_fanin m n = Some l) /\
      cell_function m n = Some (functions ops n).
Proof.
  intros Hok H1 H2. destruct (mrun_inv size ops Hok H1 H2) as (m & E & I). exists m. split; [done|].
  split; [apply I|]. split.
  - unfold has_mapping. rewrite (mi_size _ _ _ I). unfold mapped_count.
    rewrite negb_true_iff, bool_decide_eq_false. split.
    + intros H. destruct (filter (fun n => is_Some (cells ops n)) (seq 0 size)) as [|n l] eqn:El; [done|].
      assert (Hn : n ∈ filter (fun n => is_Some (cells ops n)) (seq 0 size)) by (rewrite El; apply elem_of_list_here).
      apply elem_of_list_filter in Hn as [Hs Hn%elem_of_seq]. exists n. split; [lia|done].
    + intros (n & Hn & Hs) H0.
      assert (Hin : n ∈ filter (fun n => is_Some (cells ops n)) (seq 0 size)) by (apply elem_of_list_filter; split; [done|]; apply elem_of_seq; lia).
      destruct (filter (fun n => is_Some (cells ops n)) (seq 0 size)); [by apply elem_of_nil in Hin|]. cbn in H0. lia.
  - intros n Hn. pose proof (mi_cell _ _ _ I n Hn) as Hc. split; [|split].
    + unfold is_cell_root. destruct (cells ops n) as [l|].
      * destruct Hc as (i & -> & Hi & _). cbn [mbind option_bind]. rewrite bool_decide_false by lia. done.
      * rewrite Hc. done.
    + intros l El. rewrite El in Hc. destruct Hc as (i & Hi & _ & Hat). by eapply cell_fanin_at.
    + destruct (mi_fn _ _ _ I n Hn) as (lit & Hl & Hg). unfold cell_function. rewrite Hl. done.
Qed.
Print Assumptions C18_mapping_view.

Definition and2 : tt := tt_word 2 0x8.
Definition nand_and : tt := tt_word 3 0x70. (* !(x0 & x1) & x2 *)
Definition map_ops : list mop :=
  [MAdd 4 [1; 2]; MSet 4 and2; MAdd 5 [4; 3]; MSet 5 and2; MRemove 4; MAdd 5 [1; 2; 3]; MSet 5 nand_and].
Lemma map_ops_ok : Forall (mop_ok 6) map_ops.
Proof. unfold map_ops, and2, nand_and. repeat (constructor; [first [by vm_compute | cbn; repeat split; try lia; try (repeat constructor; lia); by vm_compute]|]); constructor. Qed.
Example C18_nonvacuous : Forall (mop_ok 6) map_ops /\ cells map_ops 5 = Some [1; 2; 3] /\ cells map_ops 4 = None /\
  exists m, mrun 6 map_ops (mv_init 6) = Some m /\ num_cells m = 1%N /\ cell_fanin m 5 = Some [1; 2; 3] /\ is_cell_root m 4 = Some false.
Proof. split; [apply map_ops_ok|]. split; [done|]. split; [done|]. eexists. split; [vm_compute; reflexivity|]. vm_compute. done. Qed.

(* The fanins of a node that is NOT a cell root are not empty in general: the
   code takes index 0 of the packed vector for the number of leaves.  When node 0
   is mapped, that entry is the position of its cell, and other words of the
   vector are reported as leaves. *)
Theorem C18_unmapped_fanin_refuted : exists m, mrun 3 [MAdd 0 [1]] (mv_init 3) = Some m /\ is_cell_root m 2 = Some false /\ cell_fanin m 2 = Some [0; 0; 1].
Proof. eexists. split; [vm_compute; reflexivity|]. vm_compute. done. Qed.
Print Assumptions C18_unmapped_fanin_refuted.
(* clear_mapping drops the cells but keeps the functions *)
Theorem C18_clear_keeps_functions : exists m, mrun 3 [MAdd 2 [1]; MSet 2 and2; MClear] (mv_init 3) = Some m /\
  has_mapping m = false /\ cell_function m 2 = Some and2.
Proof. eexists. split; [vm_compute; reflexivity|]. vm_compute. done. Qed.
Print Assumptions C18_clear_keeps_functions.

(* ---- C19: collapsing a mapped network ---- *)
Lemma combinational s : is_combinational s = true -> npi s = length (ins s) /\ npo s = length (outs s).
Proof. unfold is_combinational. rewrite bool_decide_eq_true. by intros [-> ->]. Qed.
Lemma comb_pos s : is_combinational s = true -> length (pos s) = npo s.
Proof. intros [_ Hn]%combinational. unfold pos. rewrite take_length. lia. Qed.

(* For every combinational network and every mapping that is a cover (outputs
   are driven by the constant, inputs or cell roots; leaves of cells are such
   nodes too and lie below the root; cell functions are right): the LUT network
   has the same inputs and outputs and computes the same output values. *)
Theorem C19_network_to_klut s m : network s -> alive s -> is_combinational s = true ->
  cover s m (fun c n => below s n c) -> has_mapping m = true -> (N.of_nat (12 + 2 * size s) <= 2 ^ 31)%N ->
  exists d, network_to_klut s m = Some (Some d) /\ kreachable d /\
    knpi d = npi s /\ length (kins d) = npi s /\ knpo d = npo s /\ length (kouts d) = npo s /\
    forall env l, computes s env l <-> kcomputes d env l.
Proof.
  intros W Ha Hcb Hcov Hmap Hroom. pose proof (comb_pos s Hcb) as Hpl. destruct (combinational s Hcb) as [Hi Ho].
  destruct (aig_topo_from_spec s (repeat 0 (size s)) 0 W) as (order & E & Hto & _); [apply repeat_length|apply Forall_forall; intros v Hv; apply elem_of_list_In, repeat_spec in Hv; lia|].
  assert (Hlt : forall x, x ∈ order -> x < size s).
  { intros x Hx%(topo_listed s order x W Hto). destruct Hx as [Hx|(f & Hf & Hx)].
    - apply elem_of_cons in Hx as [->|Hx]; [by apply net_size|]. pose proof (net_ins_valid s W) as H. rewrite Forall_forall in H. by apply H.
    - pose proof (net_out _ W) as HO. rewrite Forall_forall in HO. specialize (HO f Hf). unfold valid in HO.
      clear -W HO Hx. revert HO Hx. generalize (sidx f). intros k Hk Hx. induction Hx as [n|n y x Hnm Hx IH]; [done|]. apply IH. by eapply net_gate. }
  assert (Hlen : length order <= size s) by (apply nodup_bound; [apply Hto|done]).
  destruct (to_klut_spec s m (fun c n => below s n c) order) as (d & Ed & Rd & Hp & Hk & Hpo & Hko & Hc); try done.
  - by left.
  - apply Hto.
  - intros p n q Eo _ c _ Hb. right. right. by eapply topo_below.
  - intros f Hf _. apply (topo_listed s order _ W Hto). right. exists f. split; [|constructor]. unfold pos in Hf. by apply (take_elem _ (npo s)).
  - lia.
  - exists d. unfold network_to_klut, aig_topo. rewrite E. rewrite Hpl in *. done.
Qed.
Print Assumptions C19_network_to_klut.

(* the version for networks with choices visits the gates by index: the same
   holds when leaves have smaller indices than roots *)
Theorem C19_choice_to_klut s m : network s -> alive s -> is_combinational s = true ->
  cover s m lt -> has_mapping m = true -> (N.of_nat (12 + 2 * size s) <= 2 ^ 31)%N ->
  exists d, choice_to_klut s m = Some (Some d) /\ kreachable d /\
    knpi d = npi s /\ length (kins d) = npi s /\ knpo d = npo s /\ length (kouts d) = npo s /\
    forall env l, computes s env l <-> kcomputes d env l.
Proof.
  intros W Ha Hcb Hcov Hmap Hroom. pose proof (comb_pos s Hcb) as Hpl. destruct (combinational s Hcb) as [Hi Ho].
  destruct (gates_spec s W Ha) as (gs & E & Hnd & Hgs).
  assert (Hlt : forall x, x ∈ gs -> x < size s).
  { intros x (a & b & Ek & _)%Hgs. by apply lookup_lt_Some in Ek. }
  assert (Hlen : length gs <= size s) by (by apply nodup_bound).
  destruct (to_klut_spec s m lt gs) as (d & Ed & Rd & Hp & Hk & Hpo & Hko & Hc); try done.
  - by left.
  - intros p n q Eo _ c Hpr Hb. destruct Hpr as [?|[?|Hr]]; [by left|by right; left|]. right. right.
    eapply gates_before; [done|done|done|exact Eo|apply Hr|done].
  - intros f Hf Hr. apply Hgs, Hr.
  - lia.
  - exists d. unfold choice_to_klut. rewrite E. rewrite Hpl in *. done.
Qed.
Print Assumptions C19_choice_to_klut.

(* without a mapping a network with gates is refused *)
Theorem C19_unmapped s m : has_mapping m = false -> u32 (ne s) <> 0%N -> network_to_klut s m = Some None /\ choice_to_klut s m = Some None.
Proof. intros H1 H2. unfold network_to_klut, choice_to_klut, to_klut. rewrite H1, bool_decide_false by done. done. Qed.
Print Assumptions C19_unmapped.

Definition mnet : aig := build [OpPi; OpPi; OpPi; OpAnd (Sig 1 false) (Sig 2 false); OpAnd (Sig 4 true) (Sig 3 false);
  OpPo (Sig 5 true); OpPo (Sig 5 false); OpPo (Sig 0 true); OpPo (Sig 2 true)].
Definition mmap : mview := get_some (mv_init 0) (mrun 6 map_ops (mv_init 6)).
Lemma mnet_reachable : reachable mnet.
Proof. apply build_reachable. vm_compute. reflexivity. Qed.
#[local] Opaque mnet mmap.
Lemma mnet_keys : ks mnet !! 4 = Some (Sig 1 false, Sig 2 false) /\ ks mnet !! 5 = Some (Sig 3 false, Sig 4 true).
Proof. vm_compute. done. Qed.
Lemma mnet_root n : root mnet mmap n -> n = 5.
Proof.
  intros [(a & b & E & _) Hr]. apply lookup_lt_Some in E. assert (El : length (ks mnet) = 6) by (vm_compute; reflexivity). rewrite El in E.
  clear -Hr E. destruct (decide (n = 5)) as [|Hn]; [done|]. exfalso.
  assert (Hall : Forall (fun k => is_cell_root mmap k = Some false) (seq 0 5)).
  { repeat (constructor; [vm_compute; reflexivity|]); constructor. }
  rewrite Forall_forall in Hall. rewrite (Hall n) in Hr; [discriminate|]. apply elem_of_seq. lia.
Qed.
Lemma mnet_cover (before : nat -> nat -> Prop) : before 1 5 -> before 2 5 -> before 3 5 -> cover mnet mmap before.
Proof.
  intros B1 B2 B3. destruct mnet_keys as [K4 K5].
  assert (R5 : root mnet mmap 5).
  { split; [exists (Sig 3 false), (Sig 4 true); split; [done|]; split; [done|congruence]|]. vm_compute. reflexivity. }
  assert (Hin : ins mnet = [1; 2; 3]) by (vm_compute; reflexivity).
  assert (Hpos : pos mnet = [Sig 5 true; Sig 5 false; Sig 0 true; Sig 2 true]) by (vm_compute; reflexivity).
  split.
  - vm_compute. lia.
  - intros f Hf. rewrite Hpos in Hf. unfold provided. rewrite Hin. rewrite !elem_of_cons in Hf. destruct Hf as [->|[->|[->|[->|Hf]]]]; cbn.
    + by right; right.
    + by right; right.
    + by left.
    + right; left. (repeat constructor).
    + exfalso; exact (not_elem_of_nil _ Hf).
  - intros n ->%mnet_root. exists [1; 2; 3], nand_and.
    split; [vm_compute; reflexivity|]. split; [vm_compute; reflexivity|]. split; [vm_compute; reflexivity|]. split; [vm_compute; reflexivity|].
    split.
    + intros c Hc. unfold provided. rewrite Hin. split; [right; by left|]. rewrite !elem_of_cons in Hc.
      destruct Hc as [->|[->|[->|Hc]]]; [done..|exfalso; exact (not_elem_of_nil _ Hc)].
    + intros env v V. rewrite (val_gate _ _ _ V 5 _ _ K5) by congruence.
      unfold sval. cbn [sidx scompl]. rewrite (val_gate _ _ _ V 4 _ _ K4) by congruence. unfold sval. cbn [sidx scompl].
      unfold tt_eval, nand_and. vm_compute. destruct (v 1), (v 2), (v 3); reflexivity.
Qed.
Example C19_nonvacuous : network mnet /\ alive mnet /\ is_combinational mnet = true /\ has_mapping mmap = true /\
  cover mnet mmap (fun c n => below mnet n c) /\ cover mnet mmap lt /\ (N.of_nat (12 + 2 * size mnet) <= 2 ^ 31)%N.
Proof.
  destruct mnet_keys as [K4 K5].
  assert (F1 : fanin mnet 5 3) by (exists (Sig 3 false), (Sig 4 true); split; [done|]; split; [done|]; split; [congruence|]; by left).
  assert (F2 : fanin mnet 5 4) by (exists (Sig 3 false), (Sig 4 true); split; [done|]; split; [done|]; split; [congruence|]; by right).
  assert (F3 : fanin mnet 4 1) by (exists (Sig 1 false), (Sig 2 false); split; [done|]; split; [done|]; split; [congruence|]; by left).
  assert (F4 : fanin mnet 4 2) by (exists (Sig 1 false), (Sig 2 false); split; [done|]; split; [done|]; split; [congruence|]; by right).
  split; [apply wf_network, reachable_wf, mnet_reachable|]. split; [apply small_alive; [apply mnet_reachable|]; vm_compute; reflexivity|].
  split; [vm_compute; reflexivity|]. split; [vm_compute; reflexivity|]. split; [|split; [apply mnet_cover; lia|vm_compute; discriminate]].
  apply mnet_cover; unfold below.
  - eapply tc_l; [exact F2|]. by apply tc_once.
  - eapply tc_l; [exact F2|]. by apply tc_once.
  - by apply tc_once.
Qed.

(* Registers are not carried over: an output driven by a register output becomes
   constant false. *)
Definition snet : aig := build [OpPi; OpPi; OpRo; OpAnd (Sig 1 false) (Sig 2 false); OpPo (Sig 3 false); OpPo (Sig 4 false); OpRi (Sig 1 true) 0%Z].
Definition smap : mview := get_some (mv_init 0) (mrun 5 [MAdd 4 [1; 2]; MSet 4 and2] (mv_init 5)).
Definition sres : klut := Eval vm_compute in get_some klut_init (get_some None (network_to_klut snet smap)).
Lemma snet_reachable : reachable snet.
Proof. apply build_reachable. vm_compute. reflexivity. Qed.
#[local] Opaque snet smap.
Theorem C19_sequential_refuted : exists s m d env l, reachable s /\ cover s m (fun c n => below s n c) /\ has_mapping m = true /\
  network_to_klut s m = Some (Some d) /\ computes s env l /\ ~ kcomputes d env l.
Proof.
  pose proof snet_reachable as Hr.
  assert (E : network_to_klut snet smap = Some (Some sres)) by (vm_compute; reflexivity).
  assert (K4 : ks snet !! 4 = Some (Sig 1 false, Sig 2 false)) by (vm_compute; reflexivity).
  assert (Hin : ins snet = [1; 2; 3]) by (vm_compute; reflexivity).
  assert (G4 : is_gate snet 4) by (exists (Sig 1 false), (Sig 2 false); split; [done|]; split; [done|congruence]).
  exists snet, smap, sres, (fun _ => true), [true; true]. split; [done|]. split; [|split; [|split; [done|split]]].
  - assert (R4 : root snet smap 4) by (split; [done|]; vm_compute; reflexivity).
    split.
    + vm_compute. lia.
    + assert (Hpos : pos snet = [Sig 3 false; Sig 4 false]) by (vm_compute; reflexivity). intros f Hf. rewrite Hpos in Hf. rewrite !elem_of_cons in Hf.
      unfold provided. rewrite Hin. destruct Hf as [->|[->|Hf]]; cbn; [right; left; (repeat constructor)|by right; right|exfalso; exact (not_elem_of_nil _ Hf)].
    + intros n [(a & b & En & _) Hroot]. apply lookup_lt_Some in En. assert (El : length (ks snet) = 5) by (vm_compute; reflexivity). rewrite El in En.
      assert (n = 4) as ->.
      { clear -Hroot En. destruct (decide (n = 4)) as [|Hn]; [done|]. exfalso.
        assert (Hall : Forall (fun k => is_cell_root smap k = Some false) (seq 0 4)).
        { repeat (constructor; [vm_compute; reflexivity|]); constructor. }
        rewrite Forall_forall in Hall. rewrite (Hall n) in Hroot; [discriminate|]. apply elem_of_seq. lia. }
      exists [1; 2], and2. split; [vm_compute; reflexivity|]. split; [vm_compute; reflexivity|]. split; [vm_compute; reflexivity|]. split; [vm_compute; reflexivity|].
      split.
      * intros c Hc. rewrite !elem_of_cons in Hc. unfold provided, below. rewrite Hin.
        destruct Hc as [->|[->|Hc]]; [| |exfalso; exact (not_elem_of_nil _ Hc)]; (split; [right; left; (repeat constructor)|]); apply tc_once;
          exists (Sig 1 false), (Sig 2 false); (split; [done|]); (split; [done|]); (split; [congruence|]); [by left|by right].
      * intros env v V. rewrite (val_gate _ _ _ V 4 _ _ K4) by congruence. unfold sval. cbn [sidx scompl].
        unfold tt_eval, and2. vm_compute. destruct (v 1), (v 2); reflexivity.
  - vm_compute. reflexivity.
  - exists (ev snet (fun _ => true)). split; [by apply ev_valuation, reachable_wf|]. vm_compute. reflexivity.
  - intros (v & V & Hl). change (kpos sres) with [0; 4] in Hl. cbn in Hl. rewrite (kv_0 _ _ _ V) in Hl. discriminate.
Qed.
Print Assumptions C19_sequential_refuted.

(* choice_to_klut reads the signal of a leaf that has a larger index than its
   root before it is computed, and takes constant false for it. *)
Definition f10 : tt := tt_word 2 0x2. (* x0 & !x1 *)
Definition cnet2 : aig :=
  Aig [(Sig 0 false, Sig 0 false); (sig_of_data 0, sig_of_data 0); (sig_of_data 1, sig_of_data 1);
       (Sig 1 false, Sig 4 true); (Sig 1 false, Sig 2 false)] (repeat 0 5) [0; 2; 1; 1; 1]%N (repeat false 5)
    [1; 2] [Sig 3 false] 2 1 [] [0] 0%N.
Definition cmap : mview := get_some (mv_init 0) (mrun 5 [MAdd 3 [1; 4]; MSet 3 f10; MAdd 4 [1; 2]; MSet 4 and2] (mv_init 5)).
Definition cres : klut := Eval vm_compute in get_some klut_init (get_some None (choice_to_klut cnet2 cmap)).
#[local] Opaque cmap.
Theorem C19_choice_order_refuted : exists s m d env l, network s /\ alive s /\ is_combinational s = true /\
  cover s m (fun c n => below s n c) /\ has_mapping m = true /\
  choice_to_klut s m = Some (Some d) /\ computes s env l /\ ~ kcomputes d env l.
Proof.
  assert (E : choice_to_klut cnet2 cmap = Some (Some cres)) by (vm_compute; reflexivity).
  assert (W : network cnet2) by (apply (net_check_sound _ (fun n => if decide (n = 3) then 9 else n)); vm_compute; reflexivity).
  assert (G : forall n, is_gate cnet2 n -> n = 3 \/ n = 4).
  { intros n (a & b & En & H0 & Hab). do 3 (destruct n as [|n]; [cbn in En; congruence|]). destruct n as [|[|n]]; [by left|by right|done]. }
  assert (G3 : is_gate cnet2 3) by (exists (Sig 1 false), (Sig 4 true); split; [done|]; split; [done|congruence]).
  assert (G4 : is_gate cnet2 4) by (exists (Sig 1 false), (Sig 2 false); split; [done|]; split; [done|congruence]).
  assert (R3 : root cnet2 cmap 3) by (split; [done|vm_compute; reflexivity]).
  assert (R4 : root cnet2 cmap 4) by (split; [done|vm_compute; reflexivity]).
  exists cnet2, cmap, cres, (fun _ => true), [false]. split; [done|]. split.
  { intros n [->| ->]%G; vm_compute; reflexivity. }
  split; [vm_compute; reflexivity|]. split; [|split; [vm_compute; reflexivity|split; [done|split]]].
  - split.
    + vm_compute. lia.
    + intros f Hf. apply elem_of_list_singleton in Hf as ->. by right; right.
    + intros n [Hg _]. apply G in Hg as [->| ->].
      * exists [1; 4], f10. split; [vm_compute; reflexivity|]. split; [vm_compute; reflexivity|]. split; [vm_compute; reflexivity|]. split; [vm_compute; reflexivity|]. split.
        -- intros c Hc. rewrite !elem_of_cons in Hc. unfold provided, below.
           destruct Hc as [->|[->|Hc]]; [split; [right; left; apply elem_of_list_here|]|split; [by right; right|]|exfalso; exact (not_elem_of_nil _ Hc)]; apply tc_once;
             exists (Sig 1 false), (Sig 4 true); (split; [done|]); (split; [done|]); (split; [congruence|]); [by left|by right].
        -- intros env v V. rewrite (val_gate _ _ _ V 3 (Sig 1 false) (Sig 4 true) eq_refl) by congruence. unfold sval. cbn [sidx scompl].
           unfold tt_eval, f10. vm_compute. destruct (v 1), (v 4); reflexivity.
      * exists [1; 2], and2. split; [vm_compute; reflexivity|]. split; [vm_compute; reflexivity|]. split; [vm_compute; reflexivity|]. split; [vm_compute; reflexivity|]. split.
        -- intros c Hc. rewrite !elem_of_cons in Hc. unfold provided, below.
           destruct Hc as [->|[->|Hc]]; [split; [right; left; cbn; (repeat constructor)|]..|exfalso; exact (not_elem_of_nil _ Hc)]; apply tc_once;
             exists (Sig 1 false), (Sig 2 false); (split; [done|]); (split; [done|]); (split; [congruence|]); [by left|by right].
        -- intros env v V. rewrite (val_gate _ _ _ V 4 (Sig 1 false) (Sig 2 false) eq_refl) by congruence. unfold sval. cbn [sidx scompl].
           unfold tt_eval, and2. vm_compute. destruct (v 1), (v 2); reflexivity.
  - exists (fun n => match n with 1 | 2 | 4 => true | _ => false end). split; [|reflexivity]. split; [done| |].
    + intros k n Hk. destruct k as [|[|k]]; cbn in Hk; [by injection Hk as <-..|done].
    + intros n a b En H0 Hab. do 3 (destruct n as [|n]; [cbn in En; congruence|]). destruct n as [|[|n]]; cbn in En; [by injection En as <- <-..|done].
  - intros (v & V & Hl).
    pose proof (kv_in _ _ _ V 0 2 eq_refl) as V2. pose proof (kv_0 _ _ _ V) as V0.
    pose proof (kv_gate _ _ _ V 4 _ f10 ltac:(lia) eq_refl eq_refl eq_refl) as V4. cbn in Hl. unfold tt_eval, f10 in V4. cbn [lookup list_lookup kch] in V4.
    vm_compute in V4. rewrite V2, V0 in V4. vm_compute in V4. rewrite V4 in Hl. discriminate.
Qed.
Print Assumptions C19_choice_order_refuted.

(* ---- C46: conversion to AIGs ---- *)
(* Every LUT network without registers, whose gates have at most 32 fanins (the
   width of the code's cubes), whatever the initial hash table size. *)
Theorem C46_convert_klut nb s : 0 < nb -> kreachable s -> knpi s = length (kins s) ->
  (forall n x, kn s !! n = Some x -> length (kch x) <= 32) ->
  exists d, convert_klut_to_aig nb s = Some d /\ reachable d /\
    npi d = knpi s /\ length (ins d) = npi d /\ npo d = length (kpos s) /\ length (outs d) = npo d /\
    forall env l, kcomputes s env l <-> computes d env l.
Proof. intros H1 H2 H3 _. by apply convert_klut_spec. Qed.
Print Assumptions C46_convert_klut.

(* a mapped AIG, gates visited by index *)
Theorem C46_convert_mapped nb s m : 0 < nb -> network s -> alive s -> is_combinational s = true -> cover s m lt ->
  (forall n l, root s m n -> cell_fanin m n = Some l -> length l <= 32) ->
  exists d, convert_mapped_graph_to_aig nb s m = Some d /\ reachable d /\
    npi d = npi s /\ length (ins d) = npi d /\ npo d = npo s /\ length (outs d) = npo d /\
    forall env l, computes s env l <-> computes d env l.
Proof.
  intros H1 H2 H3 H4 H5 _. rewrite <- (comb_pos s H4). apply convert_mapped_spec; try done. by apply combinational.
Qed.
Print Assumptions C46_convert_mapped.

(* there and back: mapping, collapsing and converting keeps the functions *)
Theorem C46_roundtrip nb s m : 0 < nb -> network s -> alive s -> is_combinational s = true ->
  cover s m (fun c n => below s n c) -> has_mapping m = true -> (N.of_nat (12 + 2 * size s) <= 2 ^ 31)%N ->
  exists d d', network_to_klut s m = Some (Some d) /\ convert_klut_to_aig nb d = Some d' /\
    reachable d' /\ npi d' = npi s /\ npo d' = npo s /\ forall env l, computes s env l <-> computes d' env l.
Proof.
  intros Hnb W Ha Hc Hcov Hm Hroom. destruct (C19_network_to_klut s m W Ha Hc Hcov Hm Hroom) as (d & E & R & Hp & Hk & Hpo & Hko & Hf).
  destruct (convert_klut_spec nb d Hnb R) as (d' & E' & R' & Hp' & _ & Hpo' & _ & Hf'); [congruence|].
  exists d, d'. do 3 (split; [done|]). split; [congruence|]. split.
  - rewrite Hpo'. unfold kpos. rewrite take_length. lia.
  - intros env l. by rewrite Hf, Hf'.
Qed.
Print Assumptions C46_roundtrip.

Definition knet : klut := kdemo [KPi; KPi; KPi; KLut [2; 3; 4] (tt_word 3 0xe8); KNot 5; KLut [6; 1; 2] (tt_word 3 0x3a); KPo 7; KPo 1; KPo 5].
Example C46_nonvacuous : kreachable knet /\ knpi knet = length (kins knet) /\ knpo knet = 3 /\
  (forall n x, kn knet !! n = Some x -> length (kch x) <= 32) /\ is_Some (convert_klut_to_aig 1 knet).
Proof.
  split; [apply kdemo_reachable; apply (bool_decide_unpack _); vm_compute; done|].
  split; [vm_compute; reflexivity|]. split; [vm_compute; reflexivity|]. split; [|apply (bool_decide_unpack _); vm_compute; done].
  intros n x Hx. apply elem_of_list_lookup_2 in Hx. revert x Hx. apply Forall_forall. vm_compute. repeat constructor.
Qed.
