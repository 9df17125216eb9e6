(* Facts about arbitrary acyclic networks. *)
From Verif Require Import Base Aig AigSem AigHash AigProofs Topo TopoProofs Clean.

Lemma wf_network s : wf s -> network s.
Proof.
  intros W. split; try apply W.
  - intros n a H. destruct (decide (n = 0)) as [->|Hn]; [by left|]. right.
    eapply elem_of_list_lookup_2, (wf_ci _ W); eauto.
  - intros n m (a & b & E & Hn & Hab & Hm). destruct (wf_gate _ W n a b E Hab) as (? & ? & ?).
    apply lookup_lt_Some in E. unfold size. destruct Hm; subst; lia.
  - exists (fun n => n). intros n m (a & b & E & Hn & Hab & Hm).
    destruct (wf_gate _ W n a b E Hab) as (? & ? & ?). destruct Hm; subst; lia.
  - apply Forall_forall. apply (wf_out _ W).
Qed.

Lemma net_size s : network s -> 0 < size s.
Proof. intros W. pose proof (lookup_lt_Some _ _ _ (net_const _ W)). done. Qed.

Lemma net_ins_valid s : network s -> Forall (fun n => n < size s) (ins s).
Proof.
  intros W. apply Forall_lookup. intros k n H. destruct (net_in _ W k n H) as [_ E].
  by apply lookup_lt_Some in E.
Qed.

Lemma net_ins_nodup s : network s -> NoDup (0 :: ins s).
Proof.
  intros W. apply NoDup_cons. split.
  - intros H. apply elem_of_list_lookup in H as [k H]. by destruct (net_in _ W k 0 H).
  - apply NoDup_alt. intros i j n Hi Hj.
    destruct (net_in _ W i n Hi) as [_ E1]. destruct (net_in _ W j n Hj) as [_ E2].
    assert (E3 : sig_of_data i = sig_of_data j) by congruence.
    rewrite <- (sdata_sig_of_data i), <- (sdata_sig_of_data j). by rewrite E3.
Qed.

(* node kinds *)
Lemma net_cases s n : network s -> n < size s ->
  n = 0 \/ (exists k, ins s !! k = Some n) \/ (n <> 0 /\ exists a b, ks s !! n = Some (a, b) /\ a <> b).
Proof.
  intros W Hn. destruct (lookup_lt_is_Some_2 (ks s) n Hn) as [[a b] E].
  destruct (decide (n = 0)); [by left|]. right. destruct (decide (a = b)) as [->|Hab].
  - left. destruct (net_ci _ W n b E); [done|]. by apply elem_of_list_lookup.
  - right. split; [done|]. by exists a, b.
Qed.

Lemma fanin_fan s n m : n < size s -> (edge (aig_fan s) n m <-> fanin s n m).
Proof.
  intros Hn. unfold edge, aig_fan, fanins, is_ci.
  destruct (lookup_lt_is_Some_2 (ks s) n Hn) as [[a b] E]. rewrite E. cbn.
  destruct (decide (n = 0)) as [->|Hn0].
  - split; [|by intros (? & ? & ? & ? & ?)]. intros (l & [= <-] & H). by apply elem_of_nil in H.
  - destruct (bool_decide_reflect (a = b)) as [->|Hab]; cbn.
    + split; [intros (l & [= <-] & H); by apply elem_of_nil in H|].
      intros (a' & b' & E' & _ & Hab & _). rewrite E in E'. injection E' as <- <-. done.
    + split.
      * intros (l & [= <-] & H). exists a, b. split; [done|]. split; [done|]. split; [done|].
        apply elem_of_cons in H as [->|H]; [by left|]. apply elem_of_list_singleton in H. by right.
      * intros (a' & b' & E' & _ & _ & Hm). rewrite E in E'. injection E' as <- <-.
        exists [sidx a; sidx b]. split; [done|]. destruct Hm as [-> | ->]; [apply elem_of_list_here|].
        apply elem_of_list_further, elem_of_list_here.
Qed.

Lemma fanin_lt s n m : fanin s n m -> n < size s.
Proof. intros (a & b & E & _). by apply lookup_lt_Some in E. Qed.

Lemma edge_lt s n m : edge (aig_fan s) n m -> n = 0 \/ n < size s.
Proof.
  intros (l & H & _). unfold aig_fan, fanins, is_ci in H. destruct (decide (n = 0)); [by left|]. right.
  destruct (ks s !! n) eqn:E; [by apply lookup_lt_Some in E|done].
Qed.

Lemma edge_fanin s n m : network s -> edge (aig_fan s) n m <-> fanin s n m.
Proof.
  intros W. split; intros H.
  - apply fanin_fan; [|done]. destruct (edge_lt _ _ _ H) as [->|?]; [by apply net_size|done].
  - apply fanin_fan; [by eapply fanin_lt|done].
Qed.

Lemma net_dag s : network s -> dag (aig_fan s) (size s).
Proof.
  intros W. destruct (net_acyclic _ W) as [rank Hr]. split.
  - intros n Hn. unfold aig_fan, fanins, is_ci. destruct (lookup_lt_is_Some_2 (ks s) n Hn) as [[a b] E].
    rewrite E. cbn. destruct (decide (n = 0)); cbn; [by eexists|].
    destruct (bool_decide (a = b)); by eexists.
  - intros n c Hn H%fanin_fan; [|done]. by eapply net_gate.
  - exists rank. intros n c Hn H%fanin_fan; [|done]. by apply Hr.
Qed.

Lemma source_no_fanin s n m : network s -> n ∈ 0 :: ins s -> ~ fanin s n m.
Proof.
  intros W Hn (a & b & E & Hn0 & Hab & _). apply elem_of_cons in Hn as [->|Hn]; [done|].
  apply elem_of_list_lookup in Hn as [k Hk]. destruct (net_in _ W k n Hk) as [_ E'].
  rewrite E in E'. by injection E' as -> ->.
Qed.

Lemma rtc_edge_fanin s n m : network s -> rtc (edge (aig_fan s)) n m <-> rtc (fanin s) n m.
Proof.
  intros W. split; (induction 1 as [|x y z H _ IH]; [apply rtc_refl|]; eapply rtc_l; [|exact IH]);
    by apply edge_fanin.
Qed.

Lemma aig_topo_from_spec s marks trav : network s ->
  length marks = size s -> Forall (fun v => v <= trav) marks ->
  exists l, aig_topo_from s marks trav = Some l /\
    topo_order (aig_fan s) (0 :: ins s) (map sidx (outs s)) l /\ Forall (fun n => n < size s) l.
Proof.
  intros W Hl Hm. apply topo_view_spec; [by apply net_dag|done|done|by apply net_ins_nodup| |].
  - apply Forall_forall. intros n Hn. split.
    + apply elem_of_cons in Hn as [->|Hn]; [by apply net_size|]. 
      pose proof (net_ins_valid s W) as Hv. rewrite Forall_forall in Hv. by apply Hv.
    + intros c Hc%edge_fanin; [|done]. by eapply source_no_fanin.
  - apply Forall_map. eapply Forall_impl; [apply (net_out _ W)|]. done.
Qed.

Lemma aig_topo_spec s : network s ->
  exists l, aig_topo s = Some l /\
    topo_order (aig_fan s) (0 :: ins s) (map sidx (outs s)) l /\ Forall (fun n => n < size s) l.
Proof.
  intros W. apply aig_topo_from_spec; [done|by rewrite repeat_length|].
  apply Forall_forall. intros v Hv. apply elem_of_list_In, repeat_spec in Hv. lia.
Qed.

(* values of nodes in arbitrary acyclic networks *)
Fixpoint nev (fuel : nat) (s : aig) (env : nat -> bool) (n : nat) : bool :=
  match fuel with
  | O => false
  | S f => match ks s !! n with
           | Some (a, b) => if decide (n = 0) then false
                            else if decide (a = b) then env (sdata a)
                            else sval (nev f s env) a && sval (nev f s env) b
           | None => false
           end
  end.

Lemma nev_stable s env rank : (forall n m, fanin s n m -> rank m < rank n) ->
  forall f1 f2 n, rank n < f1 -> rank n < f2 -> nev f1 s env n = nev f2 s env n.
Proof.
  intros Hr. induction f1 as [|f1 IH]; intros f2 n H1 H2; [lia|]. destruct f2 as [|f2]; [lia|]. cbn.
  destruct (ks s !! n) as [[a b]|] eqn:E; [|done]. destruct (decide (n = 0)); [done|].
  destruct (decide (a = b)); [done|]. unfold sval.
  assert (rank (sidx a) < rank n) by (apply Hr; exists a, b; naive_solver).
  assert (rank (sidx b) < rank n) by (apply Hr; exists a, b; naive_solver).
  rewrite (IH f2 (sidx a)), (IH f2 (sidx b)) by lia. done.
Qed.

Lemma net_valuation s env : network s -> exists v, valuation s env v.
Proof.
  intros W. destruct (net_acyclic _ W) as [rank Hr].
  exists (fun n => nev (S (rank n)) s env n). split.
  - cbn. by destruct (ks s !! 0) as [[a b]|].
  - intros k n H. destruct (net_in _ W k n H) as [H0 E]. cbn. rewrite E.
    rewrite decide_False by done. rewrite decide_True by done. by rewrite sdata_sig_of_data.
  - intros n a b E Hn Hab. cbn [nev]. rewrite E. rewrite decide_False by done. rewrite decide_False by done.
    assert (rank (sidx a) < rank n) by (apply Hr; exists a, b; naive_solver).
    assert (rank (sidx b) < rank n) by (apply Hr; exists a, b; naive_solver).
    unfold sval. rewrite (nev_stable s env rank Hr (rank n) (S (rank (sidx a)))) by lia.
    rewrite (nev_stable s env rank Hr (rank n) (S (rank (sidx b)))) by lia. done.
Qed.

Lemma net_valuation_unique s env v v' : network s -> valuation s env v -> valuation s env v' ->
  forall n, n < size s -> v n = v' n.
Proof.
  intros W V V'. destruct (net_acyclic _ W) as [rank Hr].
  intros n. remember (rank n) as r eqn:Er. revert n Er.
  induction (lt_wf r) as [r _ IH]. intros n -> Hn.
  destruct (net_cases s n W Hn) as [->|[[k Hk]|(Hn0 & a & b & E & Hab)]].
  - by rewrite (val_const _ _ _ V), (val_const _ _ _ V').
  - by rewrite (val_input _ _ _ V k n Hk), (val_input _ _ _ V' k n Hk).
  - rewrite (val_gate _ _ _ V n a b E Hn0 Hab), (val_gate _ _ _ V' n a b E Hn0 Hab).
    assert (Fa : fanin s n (sidx a)) by (exists a, b; naive_solver).
    assert (Fb : fanin s n (sidx b)) by (exists a, b; naive_solver).
    unfold sval. rewrite (IH (rank (sidx a)) ltac:(by apply Hr) (sidx a) eq_refl) by (by eapply net_gate).
    rewrite (IH (rank (sidx b)) ltac:(by apply Hr) (sidx b) eq_refl) by (by eapply net_gate). done.
Qed.

Lemma computes_unique s env l l' : network s -> computes s env l -> computes s env l' -> l = l'.
Proof.
  intros W (v & V & ->) (v' & V' & ->). apply map_ext_in. intros f Hf%elem_of_list_In. unfold sval. f_equal.
  eapply net_valuation_unique; [done|done|done|].
  pose proof (net_out _ W) as Ho. rewrite Forall_forall in Ho. apply Ho.
  unfold pos in Hf. apply elem_of_list_lookup in Hf as [i Hi]. apply lookup_take_Some in Hi as [Hi _].
  by eapply elem_of_list_lookup_2.
Qed.

(* a rank below the number of nodes *)
Lemma filter_rank_lt (r : nat -> nat) N m n : m < N -> r m < r n ->
  length (filter (fun k => r k < r m) (seq 0 N)) < length (filter (fun k => r k < r n) (seq 0 N)).
Proof.
  intros Hm Hr.
  assert (G : forall l : list nat, length (filter (fun k => r k < r m) l) + (if decide (m ∈ l) then 1 else 0) <=
     length (filter (fun k => r k < r n) l)).
  { induction l as [|k l IH].
    - cbn. rewrite decide_False; [done|]. apply not_elem_of_nil.
    - rewrite !filter_cons. destruct (decide (m ∈ k :: l)) as [Hin|Hin].
      + destruct (decide (m ∈ l)) as [Hl|Hl]; repeat case_decide; cbn; try lia.
        all: apply elem_of_cons in Hin as [->|?]; [lia|done].
      + rewrite decide_False in IH by (intros ?; apply Hin; by apply elem_of_list_further).
        repeat case_decide; cbn; lia. }
  specialize (G (seq 0 N)). rewrite decide_True in G; [lia|]. apply elem_of_seq. lia.
Qed.

Lemma net_rank s : network s -> exists rank : nat -> nat,
  (forall n m, fanin s n m -> rank m < rank n) /\ forall n, rank n <= size s.
Proof.
  intros W. destruct (net_acyclic _ W) as [r Hr].
  exists (fun n => length (filter (fun k => r k < r n) (seq 0 (size s)))). split.
  - intros n m Hf. apply filter_rank_lt; [by eapply net_gate|by apply Hr].
  - intros n. pose proof (filter_length (fun k => r k < r n) (seq 0 (size s))). by rewrite seq_length in *.
Qed.
