(* C20, C21, C22, C28: traversals, cleanup, levels and miters. *)
From Coq Require Import Sorting.Sorted.
From Verif Require Import Base Aig AigSem AigHash AigProofs AigApi AigReach Demo Topo TopoProofs Clean NetProofs CleanProofs
  Depth DepthProofs NetDemo.

(* ---- C20: cleanup_dangling ---- *)
(* With default flags the result has the same inputs and outputs and every
   output computes the same function of the inputs. *)
Theorem C20_cleanup_preserves nb s : 0 < nb -> network s -> is_combinational s = true ->
  exists d, cleanup_dangling nb s false false = Some d /\ reachable d /\
    npi d = npi s /\ npo d = npo s /\ is_combinational d = true /\
    forall env l, computes s env l <-> computes d env l.
Proof.
  intros Hnb W Hc. apply bool_decide_eq_true in Hc as [Hci Hco].
  destruct (cleanup_dangling_spec nb s false false Hnb W) as (d & ki & ko & m & leaves & d0 & Ecd & Hr & Hki & Hko &
    Hli & Hnpi & Hlo & Hnpo & Hout & Himg & _).
  apply kept_all in Hki; [|by intros x _ [? _]]. apply kept_all in Hko; [|by intros x _ f _ [? _]].
  rewrite pis_length in Hki by done.
  assert (Hlp : length (pos s) = npo s) by (rewrite pos_all by done; done). rewrite Hlp in Hko. subst ki ko.
  rewrite seq_length in *.
  assert (Hcd : is_combinational d = true) by (apply bool_decide_eq_true_2; lia).
  assert (Hdir : forall env l, computes s env l -> computes d env l).
  { intros env l (v & V & ->). exists (ev d env). split; [by apply ev_valuation, reachable_wf|].
    rewrite (pos_all d) by lia. apply list_eq. intros j. rewrite !map_lookup.
    destruct (decide (j < npo s)) as [Hj|Hj].
    - destruct (Hout j j) as (po & f & Hpo & Hf & Ho); [by rewrite lookup_seq_lt|]. rewrite Hpo, Ho. cbn. f_equal.
      destruct (Himg (sidx po)) as (f' & Hf' & _ & Hval); [apply po_listed; [done|by eapply elem_of_list_lookup_2]|].
      rewrite Hf in Hf'. injection Hf' as <-. rewrite sval_sxor, (Hval env v); [done|].
      eapply valuation_env; [|exact V]. intros k Hk. rewrite Hci in Hk.
      destruct (list_find_elem_of (eq k) (seq 0 (npi s)) k) as [[i x] Hi]; [apply elem_of_seq; lia|done|].
      rewrite Hi. apply list_find_Some in Hi as (Hi & <- & _). apply lookup_seq in Hi as [-> _]. done.
    - rewrite !lookup_ge_None_2; [done|lia|lia]. }
  exists d. split; [done|]. split; [done|]. split; [done|]. split; [done|]. split; [done|].
  intros env l. split; [apply Hdir|]. intros Hd.
  destruct (net_valuation s env W) as [v V].
  assert (Hs : computes s env (map (sval v) (pos s))) by (by exists v).
  by rewrite (computes_unique d env l _ (wf_network d (reachable_wf d Hr)) Hd (Hdir _ _ Hs)).
Qed.
Print Assumptions C20_cleanup_preserves.

(* With the flags: the unreferenced inputs (ki lists the others) and the outputs
   that are a constant or an input (ko lists the others) are dropped; the
   remaining outputs compute the same functions of the remaining inputs.
   references counts the fanin and output references (AigSem). *)
Theorem C20_cleanup_flags nb s rdp rrp : 0 < nb -> network s -> is_combinational s = true ->
  (rdp = true -> forall n, n ∈ ins s -> fanout_size s n = Some 0%N -> ~ in_use s n) ->
  exists d ki ko, cleanup_dangling nb s rdp rrp = Some d /\ reachable d /\ is_combinational d = true /\
    npi d = length ki /\ npo d = length ko /\
    kept (ins s) (fun n => rdp = true -> fanout_size s n <> Some 0%N) ki /\
    StronglySorted lt ko /\
    (forall k, k ∈ ko -> k < npo s) /\
    (rrp = false -> length ko = npo s) /\
    (* dropped outputs are constants or inputs, up to complement *)
    (forall k, k < npo s -> k ∉ ko ->
       (exists b, forall env l, computes s env l -> l !! k = Some b) \/
       (exists i b, forall env l, computes s env l -> l !! k = Some (xorb (env i) b))) /\
    forall env l, computes s env l ->
      computes d (fun j => env (nth j ki 0)) (map (fun k => nth k l false) ko).
Proof.
  intros Hnb W Hc Hrdp. apply bool_decide_eq_true in Hc as [Hci Hco].
  destruct (cleanup_dangling_spec nb s rdp rrp Hnb W) as (d & ki & ko & m & leaves & d0 & Ecd & Hr & Hki & Hko &
    Hli & Hnpi & Hlo & Hnpo & Hout & Himg & _).
  exists d, ki, ko. split; [done|]. split; [done|]. split; [apply bool_decide_eq_true_2; lia|].
  split; [done|]. split; [done|]. rewrite pis_all in Hki by done. rewrite pos_all in * by done.
  split.
  { destruct Hki as [Hs Hk]. split; [done|]. intros k. rewrite Hk. unfold dropped_pi.
    split; intros (n & Hn & HP); exists n; (split; [done|]); tauto. }
  pose proof (kept_lt _ _ _ Hko) as Hlt. rewrite Hco in Hlt. split; [apply Hko|].
  split; [intros k Hk; rewrite Forall_forall in Hlt; by apply Hlt|].
  split; [intros ->; apply kept_all in Hko; [by rewrite Hko, seq_length|by intros x _ f _ [? _]]|].
  (* the valuation of the source that the images follow *)
  set (env' := fun env : nat -> bool => fun k => match list_find (eq k) ki with Some (j, _) => env (nth j ki 0) | None => false end).
  assert (Hag : forall env v v', valuation s env v -> valuation s (env' env) v' -> forall n, n < size s -> in_use s n -> v n = v' n).
  { intros env v v' V V'. apply (valuation_agree s env (env' env)); try done. intros k n Hk Hu. unfold env'.
    destruct (list_find (eq k) ki) as [[j x]|] eqn:Ef.
    - apply list_find_Some in Ef as (Hj & <- & _). by rewrite (nth_lookup_Some _ _ _ _ Hj).
    - apply list_find_None in Ef. rewrite Forall_forall in Ef. exfalso. apply (Ef k); [|done].
      apply Hki. exists n. split; [done|]. intros [Hd1 Hd2].
      apply (Hrdp Hd1 n); [by eapply elem_of_list_lookup_2|done|done]. }
  assert (Hpo : forall k po, outs s !! k = Some po -> sidx po < size s /\ in_use s (sidx po)).
  { intros k po Hk. apply elem_of_list_lookup_2 in Hk. split.
    - pose proof (net_out _ W) as Ho. rewrite Forall_forall in Ho. by apply Ho.
    - exists po. split; [done|apply rtc_refl]. }
  assert (Hval : forall env v k po f, valuation s env v -> outs s !! k = Some po -> m !! sidx po = Some f ->
     sval (ev d (fun j => env (nth j ki 0))) f = v (sidx po)).
  { intros env v k po f V Hk Hf. destruct (Hpo k po Hk) as [Hs Hu].
    destruct (Himg (sidx po)) as (f' & Hf' & _ & Hv); [by right|]. rewrite Hf in Hf'. injection Hf' as <-.
    destruct (net_valuation s (env' env) W) as [v' V'].
    rewrite (Hag env v v' V V' _ Hs Hu). apply (Hv (fun j => env (nth j ki 0)) v'). exact V'. }
  assert (Wd : wf d) by (by apply reachable_wf).
  split.
  - intros k Hk Hko'. destruct (lookup_lt_is_Some_2 (outs s) k) as [po Hpok]; [lia|].
    destruct (Himg (sidx po)) as (f & Hf & Hvf & _); [right; by eapply Hpo|].
    assert (Ht : trivial_out d f).
    { destruct (decide (sidx f = 0 \/ sidx f ∈ ins d)) as [?|Hnt]; [done|]. exfalso. apply Hko'. apply Hko. exists po.
      split; [done|]. intros f' Hf'. rewrite Hf in Hf'. injection Hf' as <-. unfold trivial_out. tauto. }
    destruct Ht as [Hz|Hi].
    + left. exists (xorb (scompl f) (scompl po)). intros env l (v & V & ->). rewrite pos_all by done.
      rewrite map_lookup, Hpok. cbn. f_equal. unfold sval at 1.
      rewrite <- (Hval env v k po f V Hpok Hf). unfold sval. rewrite Hz, ev_const by done. by destruct (scompl f), (scompl po).
    + right. apply elem_of_list_lookup in Hi as [j Hj].
      exists (nth j ki 0), (xorb (scompl f) (scompl po)). intros env l (v & V & ->). rewrite pos_all by done.
      rewrite map_lookup, Hpok. cbn. f_equal. unfold sval at 1.
      rewrite <- (Hval env v k po f V Hpok Hf). unfold sval. rewrite (ev_input d _ j _ Wd Hj).
      by destruct (scompl f), (scompl po), (env (nth j ki 0)).
  - intros env l (v & V & ->). exists (ev d (fun j => env (nth j ki 0))). split; [by apply ev_valuation|].
    rewrite !pos_all by (done || lia). apply list_eq. intros j. rewrite !map_lookup.
    destruct (ko !! j) as [k|] eqn:Ej.
    + destruct (Hout j k Ej) as (po & f & Hpok & Hf & Ho). rewrite Ho. cbn. f_equal.
      rewrite (nth_lookup_Some _ k _ (sval v po)).
      * rewrite sval_sxor, (Hval env v k po f V Hpok Hf). done.
      * by rewrite map_lookup, Hpok.
    + apply lookup_ge_None in Ej. rewrite lookup_ge_None_2 by lia. done.
Qed.
Print Assumptions C20_cleanup_flags.

(* No dead logic is left: every AND of the result is below an output.  The
   source must be strashed: networks made by the creation API are. *)
Theorem C20_no_dangling nb s rdp rrp d : 0 < nb -> network s -> strashed s -> is_combinational s = true ->
  (rdp = true -> forall n, n ∈ ins s -> fanout_size s n = Some 0%N -> ~ in_use s n) ->
  cleanup_dangling nb s rdp rrp = Some d ->
  forall n, is_gate d n -> in_use d n.
Proof.
  intros Hnb W St Hc Hrdp Hcd. apply bool_decide_eq_true in Hc as [Hci Hco].
  by eapply (cleanup_no_dangling nb s rdp rrp d).
Qed.
Print Assumptions C20_no_dangling.

(* the hypotheses on fanout counters hold for API-made networks *)
Lemma refs_in_use s n : wf s -> references s n = 0 -> ~ in_use s n.
Proof.
  intros W Hz (f & Hf & Hp).
  assert (Hsum : forall (l : list nat) x, x ∈ l -> x <= sum_list l).
  { induction l as [|y l IH]; intros x Hx; [by apply elem_of_nil in Hx|]. cbn.
    apply elem_of_cons in Hx as [->|Hx]; [lia|]. specialize (IH x Hx). lia. }
  unfold references in Hz. apply rtc_inv_r in Hp as [Heq|(m & _ & a & b & E & Hm0 & Hab & Hn)].
  - assert (count_sig n f <= sum_list (map (count_sig n) (outs s))) by (apply Hsum, elem_of_list_fmap; eauto).
    unfold count_sig at 1 in H. rewrite decide_True in H by done. lia.
  - assert (Hin : (a, b) ∈ ks s) by (by eapply elem_of_list_lookup_2).
    assert (gate_refs n (a, b) <= sum_list (map (gate_refs n) (ks s))) by (apply Hsum, elem_of_list_fmap; eauto).
    assert (1 <= gate_refs n (a, b)); [|lia].
    unfold gate_refs, count_sig. cbn. rewrite decide_False by done. destruct Hn; subst n; repeat case_decide; done || lia.
Qed.

Theorem C20_api_networks s : reachable s -> (forall n, n ∈ ins s -> (N.of_nat (references s n) < 2 ^ 31)%N) ->
  network s /\ strashed s /\ forall n, n ∈ ins s -> fanout_size s n = Some 0%N -> ~ in_use s n.
Proof.
  intros Hr Hlt. pose proof (reachable_wf s Hr) as W. split; [by apply wf_network|]. split; [by apply wf_strashed|].
  intros n Hn Hf. apply refs_in_use; [done|]. specialize (Hlt n Hn).
  assert (Hs : n < size s).
  { pose proof (net_ins_valid s (wf_network s W)) as Hi. rewrite Forall_forall in Hi. by apply Hi. }
  rewrite fanout_exact in Hf by done. injection Hf as Hf. rewrite N.mod_small in Hf; [lia|done].
Qed.
Print Assumptions C20_api_networks.

(* the source has a gate before its fanins, a dead gate, and complemented edges *)
Example C20_nonvacuous :
  network skewed2 /\ strashed skewed2 /\ is_combinational skewed2 = true /\
  match cleanup_dangling 1 skewed2 false false with
  | Some d => size d = 7 /\ map sidx (outs d) = [5; 6] /\ npi d = 2
  | None => False end.
Proof.
  split; [apply skewed2_network|]. split; [apply skewed2_strashed|]. split; [by vm_compute|]. vm_compute. done.
Qed.
Example C20_flags_nonvacuous :
  reachable comb /\ is_combinational comb = true /\ (forall n, n ∈ ins comb -> references comb n < 10) /\
  match cleanup_dangling 1 comb true true with
  | Some d => npi d = 3 /\ npo d = 1 /\ npo comb = 2 /\ size d = 8 /\ size comb = 9
  | None => False end.
Proof.
  split; [apply comb_reachable|]. split; [by vm_compute|]. split; [|vm_compute; done].
  assert (H : forallb (fun n => references comb n <? 10) (ins comb) = true) by (vm_compute; reflexivity).
  rewrite forallb_forall in H. intros n Hn. apply Nat.ltb_lt, H. exact (proj1 (elem_of_list_In _ _) Hn).
Qed.

(* Sequential networks are not preserved: register outputs become constant 0
   (cleanup.hpp:44-48 maps primary inputs only) and register inputs are lost. *)
Definition seq_net : aig := build [OpPi; OpRo; OpAnd (Sig 1 false) (Sig 2 false); OpPo (Sig 3 false); OpRi (Sig 1 true) 0%Z].
Theorem C20_sequential_refuted : exists s d env, reachable s /\ cleanup_dangling 1 s false false = Some d /\
  computes s env [true] /\ computes d env [false] /\ length (outs s) = 2 /\ length (outs d) = 1.
Proof.
  exists seq_net, (get_some seq_net (cleanup_dangling 1 seq_net false false)), (fun _ => true).
  assert (Hr : reachable seq_net) by (apply build_reachable; vm_compute; reflexivity).
  assert (E : cleanup_dangling 1 seq_net false false = Some (get_some seq_net (cleanup_dangling 1 seq_net false false))) by (vm_compute; reflexivity).
  assert (Hr2 : network (get_some seq_net (cleanup_dangling 1 seq_net false false))) by (apply (net_check_sound _ id); vm_compute; reflexivity).
  split; [done|]. split; [exact E|]. split; [|split; [|split; vm_compute; reflexivity]].
  - exists (ev seq_net (fun _ => true)). split; [by apply ev_valuation, reachable_wf|]. vm_compute. reflexivity.
  - destruct (net_valuation _ (fun _ => true) Hr2) as [v V]. exists v. split; [exact V|].
    assert (Hp : pos (get_some seq_net (cleanup_dangling 1 seq_net false false)) = [Sig 0 false]) by (vm_compute; reflexivity).
    rewrite Hp. cbn. unfold sval. cbn. by rewrite (val_const _ _ _ V).
Qed.
Print Assumptions C20_sequential_refuted.

(* An AND with a constant fanin (left by rewiring children in place) is
   simplified away while its cone has already been copied: the copy dangles. *)
Definition const_and : aig :=
  Aig [(Sig 0 false, Sig 0 false); (sig_of_data 0, sig_of_data 0); (sig_of_data 1, sig_of_data 1);
       (Sig 1 false, Sig 2 false); (Sig 0 false, Sig 3 false)] (repeat 0 5) [1; 1; 1; 1; 1]%N (repeat false 5)
    [1; 2] [Sig 4 false] 2 1 [] [0] 0%N.
Theorem C20_trivial_and_dangles_refuted : exists s d n, network s /\ is_combinational s = true /\
  cleanup_dangling 1 s false false = Some d /\ is_gate d n /\ ~ in_use d n.
Proof.
  exists const_and, (get_some const_and (cleanup_dangling 1 const_and false false)), 3.
  assert (E : cleanup_dangling 1 const_and false false = Some (get_some const_and (cleanup_dangling 1 const_and false false))) by (vm_compute; reflexivity).
  set (d := get_some const_and (cleanup_dangling 1 const_and false false)) in *.
  assert (Hk : ks d = [(Sig 0 false, Sig 0 false); (sig_of_data 0, sig_of_data 0); (sig_of_data 1, sig_of_data 1); (Sig 1 false, Sig 2 false)]) by (vm_compute; reflexivity).
  assert (Ho : outs d = [Sig 0 false]) by (vm_compute; reflexivity).
  split; [apply (net_check_sound _ id); vm_compute; reflexivity|]. split; [by vm_compute|]. split; [exact E|]. clear E. clearbody d.
  split; [exists (Sig 1 false), (Sig 2 false); by rewrite Hk|].
  intros (f & Hf & Hp). rewrite Ho in Hf. apply elem_of_list_singleton in Hf as ->. cbn in Hp.
  inversion Hp as [|x y z Hxy]; subst. destruct Hxy as (a & b & _ & Hn & _). done.
Qed.
Print Assumptions C20_trivial_and_dangles_refuted.

(* ---- C21: topological order ---- *)
(* For every acyclic network, whatever the visited fields contain: the constant
   and the inputs come first, exactly the nodes below the combinational outputs
   follow, each node once and after its fanins. *)
Theorem C21_topo_view s marks trav : network s -> length marks = size s -> Forall (fun m => m <= trav) marks ->
  exists l, aig_topo_from s marks trav = Some l /\
    (exists rest, l = 0 :: ins s ++ rest) /\ NoDup l /\
    (forall n, n ∈ l <-> n = 0 \/ n ∈ ins s \/ in_use s n) /\
    (forall i n c, l !! i = Some n -> fanin s n c -> exists j, j < i /\ l !! j = Some c).
Proof.
  intros W Hl Hm. destruct (aig_topo_from_spec s marks trav W Hl Hm) as (l & E & Hto & _).
  exists l. split; [done|]. split; [|split; [|split]].
  - destruct (to_sources _ _ _ _ Hto) as [rest ->]. by exists rest.
  - apply Hto.
  - intros n. rewrite (topo_listed s l n W Hto). unfold listed. rewrite elem_of_cons. tauto.
  - intros i n c Hi Hc. by apply (to_after _ _ _ _ Hto i n), edge_fanin.
Qed.
Print Assumptions C21_topo_view.

Example C21_nonvacuous : network skewed2 /\ aig_topo_from skewed2 [3; 0; 2; 1; 3; 3; 0; 1] 3 = Some [0; 1; 2; 4; 5; 3; 7].
Proof. split; [apply skewed2_network|]. vm_compute. reflexivity. Qed.

(* ---- C22: levels ---- *)
(* path_cost s n w: some path from a source to n has total cost w (Depth.v);
   with unit_cost and no complement counting it is the number of gates. *)
Theorem C22_levels cost cc s marks trav : network s -> length marks = size s -> Forall (fun m => m <= trav) marks ->
  exists v, update_levels cost cc s marks trav = Some v /\
    (forall n, below_po s n -> exists l, level v n = Some l /\ maximum (path_cost cost cc s n) l) /\
    (forall n, n < size s -> ~ below_po s n -> level v n = Some 0) /\
    maximum (po_cost cost cc s) (dv_depth v).
Proof.
  intros W Hl Hm. destruct (update_levels_spec cost cc s marks trav W Hl Hm) as (v & E & _ & H1 & H2 & H3).
  by exists v.
Qed.
Print Assumptions C22_levels.

(* A view that starts empty stays exact under creation calls: every AND has an
   exact level; the depth is exact when complements are not counted. *)
Theorem C22_incremental cost cc x : dreach cost cc x ->
  (forall n, is_gate x.1 n -> exists l, level x.2 n = Some l /\ maximum (path_cost cost cc x.1 n) l) /\
  (forall n l, level x.2 n = Some l -> maximum (path_cost cost cc x.1 n) l) /\
  (cc = false -> maximum (po_cost cost cc x.1) (dv_depth x.2)).
Proof.
  intros Hd. destruct (dreach_inv cost cc x Hd) as [Hr Hci Hco Hlen Hex Hg Ho Hdep]. split; [|split; [exact Hex|exact Hdep]].
  intros n (a & b & E & Hn & Hab). assert (Hlt : n < length (dv_lev x.2)).
  { destruct (decide (n < length (dv_lev x.2))); [done|]. exfalso.
    eapply (source_no_fanin x.1 n (sidx a)); [by apply wf_network, reachable_wf| |exists a, b; auto].
    apply elem_of_list_further, Hg; [by apply lookup_lt_Some in E|lia]. }
  destruct (lookup_lt_is_Some_2 _ _ Hlt) as [l Hl]. exists l. split; [done|]. by apply Hex.
Qed.
Print Assumptions C22_incremental.

Example C22_nonvacuous :
  update_levels unit_cost false skewed2 [3; 0; 2; 1; 3; 3; 0; 1] 3 = Some (DV [0; 0; 0; 2; 1; 1; 0; 3] 3) /\
  update_levels unit_cost true skewed2 (repeat 0 8) 0 = Some (DV [0; 0; 0; 3; 1; 2; 0; 5] 5).
Proof. vm_compute. done. Qed.

Definition drun (ops : list dop) : option (aig * dview) :=
  foldl (fun x o => match x with Some y => match dstep unit_cost false o y with Some (_, y') => Some y' | None => None end | None => None end)
    (Some (dv_empty 1)) ops.
Example C22_incremental_nonvacuous :
  match drun [DPi; DPi; DAnd (Sig 1 false) (Sig 2 true); DPi; DAnd (Sig 3 true) (Sig 4 false); DPo (Sig 5 true); DPo (Sig 2 false)] with
  | Some x => dv_lev x.2 = [0; 0; 0; 1; 0; 2] /\ dv_depth x.2 = 2
  | None => False end.
Proof. vm_compute. done. Qed.

(* Counting complements, create_po through the view ignores the complement of
   the output edge (depth_view.hpp:176) but update_levels counts it. *)
Theorem C22_create_po_complement_refuted : exists x, dreach unit_cost true x /\
  ~ maximum (po_cost unit_cost true x.1) (dv_depth x.2).
Proof.
  assert (H : exists x1 x2 x3 x4, dstep unit_cost true DPi (dv_empty 1) = Some (tt, x1) /\ dstep unit_cost true DPi x1 = Some (tt, x2) /\
    dstep unit_cost true (DAnd (Sig 1 false) (Sig 2 false)) x2 = Some (tt, x3) /\
    dstep unit_cost true (DPo (Sig 3 true)) x3 = Some (tt, x4) /\
    size x2.1 = 3 /\ size x3.1 = 4 /\ pos x4.1 = [Sig 3 true] /\ ks x4.1 !! 3 = Some (Sig 1 false, Sig 2 false) /\ pis x4.1 = [1; 2] /\ dv_depth x4.2 = 1).
  { do 4 eexists. repeat (split; [vm_compute; reflexivity|]). vm_compute. reflexivity. }
  destruct H as (x1 & x2 & x3 & x4 & E1 & E2 & E3 & E4 & S2 & S3 & Hp & Hk & Hi & Hd).
  exists x4. split.
  - apply (dr_step _ _ x3 (DPo (Sig 3 true))); [|unfold valid; rewrite S3; cbn; lia|done].
    apply (dr_step _ _ x2 (DAnd (Sig 1 false) (Sig 2 false))); [|unfold valid; rewrite S2; cbn; lia|done].
    apply (dr_step _ _ x1 DPi); [|done|done]. apply (dr_step _ _ (dv_empty 1) DPi); [|done|done]. constructor. lia.
  - rewrite Hd. intros [_ Hmax]. assert (H2 : po_cost unit_cost true x4.1 2).
    { right. exists (Sig 3 true), 1. rewrite Hp. split; [apply elem_of_list_here|]. split; [|done]. cbn.
      apply (pc_gate unit_cost true _ 3 (Sig 1 false) (Sig 2 false) (Sig 1 false) 0); auto.
      apply pc_source. right. rewrite Hi. apply elem_of_list_here. }
    specialize (Hmax 2 H2). lia.
Qed.
Print Assumptions C22_create_po_complement_refuted.

(* Nodes that no output depends on get level 0 at construction, and gates made
   on top of them later inherit the wrong level. *)
Theorem C22_dangling_level_refuted : exists s v n, reachable s /\
  update_levels unit_cost false s (repeat 0 (size s)) 0 = Some v /\ is_gate s n /\
  level v n = Some 0 /\ ~ maximum (path_cost unit_cost false s n) 0.
Proof.
  set (s := build [OpPi; OpPi; OpAnd (Sig 1 false) (Sig 2 false); OpPo (Sig 1 false)]).
  assert (Hk : ks s !! 3 = Some (Sig 1 false, Sig 2 false)) by (vm_compute; reflexivity).
  exists s, (DV [0; 0; 0; 0] 0), 3.
  split; [apply build_reachable; vm_compute; reflexivity|]. split; [vm_compute; reflexivity|].
  assert (Hi : pis s = [1; 2]) by (vm_compute; reflexivity). clearbody s.
  split; [by exists (Sig 1 false), (Sig 2 false)|]. split; [done|]. intros [_ Hm].
  assert (H1 : path_cost unit_cost false s 3 1).
  { apply (pc_gate unit_cost false _ 3 (Sig 1 false) (Sig 2 false) (Sig 1 false) 0); auto.
    apply pc_source. right. rewrite Hi. apply elem_of_list_here. }
  specialize (Hm 1 H1). lia.
Qed.
Print Assumptions C22_dangling_level_refuted.

(* Register outputs are sources of the combinational logic but get level 1. *)
Theorem C22_register_level_refuted : exists s v n, reachable s /\
  update_levels unit_cost false s (repeat 0 (size s)) 0 = Some v /\ n ∈ ins s /\ level v n = Some 1.
Proof.
  exists seq_net, (DV [0; 0; 1; 2] 2), 2.
  split; [apply build_reachable; vm_compute; reflexivity|]. split; [vm_compute; reflexivity|].
  split; [|done]. assert (Hi : ins seq_net = [1; 2]) by (vm_compute; reflexivity). rewrite Hi.
  apply elem_of_list_further, elem_of_list_here.
Qed.
Print Assumptions C22_register_level_refuted.

(* ---- C28: miter ---- *)
Theorem C28_miter nb s1 s2 : 0 < nb -> network s1 -> network s2 ->
  is_combinational s1 = true -> is_combinational s2 = true ->
  (npi s1 <> npi s2 \/ npo s1 <> npo s2 -> miter nb s1 s2 = Some None) /\
  (npi s1 = npi s2 -> npo s1 = npo s2 ->
   exists d, miter nb s1 s2 = Some (Some d) /\ reachable d /\ is_combinational d = true /\ npi d = npi s1 /\ npo d = 1 /\
     forall env l1 l2, computes s1 env l1 -> computes s2 env l2 ->
       (computes d env [true] <-> l1 <> l2) /\ (computes d env [false] <-> l1 = l2)).
Proof.
  intros Hnb W1 W2 Hc1 Hc2. apply bool_decide_eq_true in Hc1 as [Hi1 _]. apply bool_decide_eq_true in Hc2 as [Hi2 _].
  split; [intros H; unfold miter; by rewrite decide_True|]. intros Hi Ho.
  destruct (miter_spec nb s1 s2 Hnb W1 W2 Hi1 Hi2 Hi Ho) as (d & E & Hr & Hnpi & Hli & Hnpo & Hlo & Hc).
  exists d. split; [done|]. split; [done|]. split; [apply bool_decide_eq_true_2; lia|]. split; [done|]. split; [done|].
  intros env l1 l2 H1 H2. specialize (Hc env l1 l2 H1 H2).
  assert (Hu : forall b, computes d env [b] -> b = negb (bool_decide (l1 = l2))).
  { intros b Hb. pose proof (computes_unique d env _ _ (wf_network d (reachable_wf d Hr)) Hb Hc) as He. by injection He. }
  split; split.
  - intros Hb%Hu. by destruct (bool_decide_reflect (l1 = l2)).
  - intros Hne. by rewrite bool_decide_eq_false_2 in Hc.
  - intros Hb%Hu. by destruct (bool_decide_reflect (l1 = l2)).
  - intros He. by rewrite bool_decide_eq_true_2 in Hc.
Qed.
Print Assumptions C28_miter.

(* the two outputs of the networks below differ in the second position only *)
Example C28_nonvacuous : network skewed /\ network skewed2 /\ npi skewed = npi skewed2 /\ npo skewed = npo skewed2 /\
  is_combinational skewed = true /\ is_combinational skewed2 = true /\
  match miter 1 skewed skewed2 with
  | Some (Some d) => map (sval (ev d (fun k => k =? 0))) (outs d) = [true] /\ map (sval (ev d (fun _ => true))) (outs d) = [false]
  | _ => False end.
Proof.
  split; [apply skewed_network|]. split; [apply skewed2_network|]. vm_compute. done.
Qed.
