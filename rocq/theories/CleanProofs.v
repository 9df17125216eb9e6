(* Correctness of cleanup_dangling. *)
From Coq Require Import Sorting.Sorted.
From stdpp Require Import sorting.
From Verif Require Import Base Aig AigSem AigHash AigProofs AigApi AigReach Topo TopoProofs Clean NetProofs.

Lemma assign_spec ns : forall fs m, length ns = length fs -> NoDup ns -> Forall (fun n => n < length m) ns ->
  exists m', assign ns fs m = Some m' /\ length m' = length m /\
    (forall i n f, ns !! i = Some n -> fs !! i = Some f -> m' !! n = Some f) /\
    (forall n, n ∉ ns -> m' !! n = m !! n).
Proof.
  induction ns as [|n ns IH]; intros [|f fs] m Hl Hnd Hlt; cbn in *; try done.
  - exists m. split; [done|]. split; [done|]. split; [|done]. intros i n f H. by rewrite lookup_nil in H.
  - apply NoDup_cons in Hnd as [Hn Hnd]. apply Forall_cons in Hlt as [Hn' Hlt].
    destruct (IH fs (<[n := f]> m)) as (m' & E & Hlen & Hin & Hout); [lia|done| |].
    { eapply Forall_impl; [exact Hlt|]. cbn. intros. by rewrite insert_length. }
    exists m'. split; [done|]. rewrite insert_length in Hlen. split; [done|]. split.
    + intros [|i] k g Hk Hg; cbn in *.
      * injection Hk as ->. injection Hg as ->. rewrite Hout by done. by apply list_lookup_insert.
      * by eapply Hin.
    + intros k Hk. apply not_elem_of_cons in Hk as [Hkn Hk]. rewrite Hout by done. by rewrite list_lookup_insert_ne.
Qed.

Lemma lookup_repeat_lt {A} (x : A) n i : i < n -> repeat x n !! i = Some x.
Proof. revert i. induction n as [|n IH]; intros [|i] H; cbn; try lia; [done|]. apply IH. lia. Qed.

Lemma map_lookup {A B} (f : A -> B) l i : map f l !! i = f <$> l !! i.
Proof. apply list_lookup_fmap. Qed.

Lemma take_elem {A} (l : list A) k x : x ∈ take k l -> x ∈ l.
Proof. intros H. rewrite <- (take_drop k l). apply elem_of_app. by left. Qed.

Lemma pis_nodup s : network s -> NoDup (pis s).
Proof.
  intros W. pose proof (net_ins_nodup s W) as H. apply NoDup_cons in H as [_ H].
  unfold pis. rewrite <- (take_drop (npi s) (ins s)) in H. by apply NoDup_app in H as (? & _).
Qed.

Lemma pis_length s : network s -> length (pis s) = npi s.
Proof. intros W. unfold pis. rewrite take_length. pose proof (net_npi _ W). lia. Qed.

(* values of the source inputs given by the leaves *)
Definition leaf_env (d : aig) (leaves : list signal) (e : nat -> bool) (k : nat) : bool :=
  match leaves !! k with Some f => sval (ev d e) f | None => false end.

Definition image (s d : aig) (env : (nat -> bool) -> nat -> bool) (m : list signal) (n : nat) : Prop :=
  exists f, m !! n = Some f /\ valid d f /\
  forall e v, valuation s (env e) v -> sval (ev d e) f = v n.

Lemma image_ext s d d' env m n : ext d d' -> image s d env m n -> image s d' env m n.
Proof.
  intros He (f & Hf & Hv & Hval). exists f. split; [done|]. split; [by eapply ext_valid|].
  intros e v V. rewrite (ext_sval d d' e f He Hv). by apply Hval.
Qed.

Lemma copy_node_spec s d env m n : network s -> reachable d -> n < size s -> length m = size s ->
  (n ∈ 0 :: ins s -> image s d env m n) ->
  (forall c, fanin s n c -> image s d env m c) ->
  wp (copy_node s m n) d (fun m' d' => reachable d' /\ ext d d' /\ length m' = size s /\
    image s d' env m' n /\ (forall k, k <> n -> m' !! k = m !! k) /\ (n ∈ 0 :: ins s -> m' = m)).
Proof.
  intros W D Hn Hlen Hsrc Hfan. unfold copy_node.
  destruct (lookup_lt_is_Some_2 (ks s) n Hn) as [[a b] E].
  apply wp_bnd. eapply wp_lift; [unfold is_ci; rewrite E; reflexivity|]. cbn.
  destruct (decide (n ∈ 0 :: ins s)) as [Hin|Hin].
  - assert (bool_decide (n = 0) || bool_decide (a = b) = true) as ->.
    { apply elem_of_cons in Hin as [->|Hin]; [done|]. apply elem_of_list_lookup in Hin as [k Hk].
      destruct (net_in _ W k n Hk) as [_ E']. rewrite E in E'. injection E' as -> ->.
      rewrite (bool_decide_eq_true_2 (sig_of_data k = sig_of_data k)) by done. apply orb_true_r. }
    apply wp_ret. split; [done|]. split; [apply ext_refl|]. split; [done|]. split; [by apply Hsrc|done].
  - apply not_elem_of_cons in Hin as [Hn0 Hin].
    assert (Hab : a <> b) by (intros ->; destruct (net_ci _ W n b E); done).
    rewrite !bool_decide_eq_false_2 by done. cbn [orb].
    apply wp_bnd. eapply wp_lift; [exact E|]. cbn.
    destruct (Hfan (sidx a)) as (fa & Ha & Hva & Hvala); [exists a, b; naive_solver|].
    destruct (Hfan (sidx b)) as (fb & Hb & Hvb & Hvalb); [exists a, b; naive_solver|].
    apply wp_bnd. eapply wp_lift; [exact Ha|]. apply wp_bnd. eapply wp_lift; [exact Hb|].
    bstep create_and_r f d' Hw He Hv Hval.
    apply wp_ret. split; [done|]. split; [done|]. split; [by rewrite insert_length|]. split; [|split].
    + exists f. split; [apply list_lookup_insert; lia|]. split; [done|]. intros e v V.
      rewrite Hval, !sval_sxor, (Hvala e v V), (Hvalb e v V).
      by rewrite (val_gate _ _ _ V n a b E Hn0 Hab).
    + intros k Hk. by rewrite list_lookup_insert_ne.
    + intros Hx. apply elem_of_cons in Hx as [?|?]; done.
Qed.

(* the nodes listed by the topological order *)
Definition listed (s : aig) (n : nat) : Prop := n ∈ 0 :: ins s \/ in_use s n.

Lemma topo_listed s l n : network s -> topo_order (aig_fan s) (0 :: ins s) (map sidx (outs s)) l ->
  n ∈ l <-> listed s n.
Proof.
  intros W [_ _ H _]. rewrite H. unfold listed, in_use. split; intros [?|(r & Hr & Hn)]; try (by left); right.
  - apply elem_of_list_fmap in Hr as (f & -> & Hf). exists f. split; [done|]. by apply rtc_edge_fanin.
  - exists (sidx r). split; [by apply elem_of_list_fmap_1|]. by apply rtc_edge_fanin.
Qed.

Lemma cleanup_impl_spec s d leaves : network s -> reachable d -> Forall (valid d) leaves -> length leaves = npi s ->
  wp (cleanup_impl s leaves) d (fun m d' => reachable d' /\ ext d d' /\ length m = size s /\
    forall n, listed s n -> image s d' (leaf_env d leaves) m n).
Proof.
  intros W D Hv Hl. unfold cleanup_impl.
  pose proof (net_size s W) as Hsz. pose proof (net_ins_nodup s W) as Hnd. apply NoDup_cons in Hnd as [H0 Hnd].
  destruct (assign_spec (pis s) leaves (<[0 := get_constant false]> (repeat (Sig 0 false) (size s))))
    as (m0 & E0 & Hm0 & Hin & Hout).
  { by rewrite pis_length. }
  { by apply pis_nodup. }
  { apply Forall_forall. intros n Hn%take_elem. rewrite insert_length, repeat_length.
    pose proof (net_ins_valid s W) as Hi. rewrite Forall_forall in Hi. by apply Hi. }
  apply wp_bnd. eapply wp_lift; [exact E0|]. rewrite insert_length, repeat_length in Hm0.
  destruct (aig_topo_spec s W) as (l & El & Hto & Hlt).
  apply wp_bnd. eapply wp_lift; [exact El|].
  assert (Hdef : forall n, n < size s -> n ∉ pis s -> m0 !! n = Some (Sig 0 false)).
  { intros n Hn Hnp. rewrite Hout by done. destruct (decide (n = 0)) as [->|Hn0].
    - apply list_lookup_insert. by rewrite repeat_length.
    - rewrite list_lookup_insert_ne by done. by apply lookup_repeat_lt. }
  assert (Hbase : forall n, n ∈ 0 :: ins s -> image s d (leaf_env d leaves) m0 n).
  { intros n Hn. destruct (decide (n ∈ pis s)) as [Hp|Hp].
    - apply elem_of_list_lookup in Hp as [k Hk].
      assert (is_Some (leaves !! k)) as [f Hf].
      { apply lookup_lt_is_Some_2. apply lookup_lt_Some in Hk. rewrite pis_length in Hk by done. lia. }
      exists f. split; [by eapply Hin|]. split; [by eapply Forall_lookup_1 in Hv|].
      intros e v V. apply lookup_take_Some in Hk as [Hk _]. rewrite (val_input _ _ _ V k n Hk).
      unfold leaf_env. by rewrite Hf.
    - exists (Sig 0 false). split; [|split].
      + apply Hdef; [|done]. apply elem_of_cons in Hn as [->|Hn]; [done|].
        pose proof (net_ins_valid s W) as Hi. rewrite Forall_forall in Hi. by apply Hi.
      + unfold valid. cbn. by apply wf_size, reachable_wf.
      + intros e v V. change (Sig 0 false) with (get_constant false). rewrite sval_const by (by apply reachable_wf).
        apply elem_of_cons in Hn as [->|Hn]; [by rewrite (val_const _ _ _ V)|].
        apply elem_of_list_lookup in Hn as [k Hk]. rewrite (val_input _ _ _ V k n Hk).
        unfold leaf_env. destruct (leaves !! k) as [f|] eqn:Ek; [|done]. exfalso. apply Hp.
        apply lookup_lt_Some in Ek. eapply (elem_of_list_lookup_2 _ k). unfold pis.
        rewrite lookup_take by lia. exact Hk. }
  eapply wp_mono; [eapply (foldM_wp _ (fun p m d' => reachable d' /\ ext d d' /\ length m = size s /\
    (forall n, n ∈ 0 :: ins s \/ n ∈ p -> image s d' (leaf_env d leaves) m n)))|].
  - split; [done|]. split; [apply ext_refl|]. split; [done|]. intros n [Hn|Hn]; [by apply Hbase|by apply elem_of_nil in Hn].
  - intros p n q m d' Elq (Hw & He & Hlm & Himg).
    assert (Hnl : l !! length p = Some n) by (rewrite Elq; by apply list_lookup_middle).
    eapply wp_mono; [eapply (copy_node_spec s d' (leaf_env d leaves)); try done|].
    + by eapply Forall_lookup_1 in Hlt.
    + intros Hn. apply Himg. by left.
    + intros c Hc. apply Himg. right.
      destruct (to_after _ _ _ _ Hto (length p) n c Hnl) as (j & Hj & Hjl); [by apply edge_fanin|].
      rewrite Elq, lookup_app_l in Hjl by done. by eapply elem_of_list_lookup_2.
    + intros m' d'' (Hw' & He' & Hlm' & Himg' & Hoth & Hsrc). cbn beta.
      split; [done|]. split; [by eapply ext_trans|]. split; [done|]. intros k Hk.
      destruct (decide (k = n)) as [->|Hkn]; [done|].
      assert (Hk' : image s d' (leaf_env d leaves) m k).
      { apply Himg. destruct Hk as [?|Hk]; [by left|]. apply elem_of_app in Hk as [?|Hk]; [by right|].
        by apply elem_of_list_singleton in Hk. }
      destruct (image_ext _ _ d'' _ _ _ He' Hk') as (f & Hf & ?). exists f. by rewrite Hoth.
  - intros m d' (Hw & He & Hlm & Himg). cbn beta. split; [done|]. split; [done|]. split; [done|].
    intros n Hn. apply Himg. right. by apply (topo_listed s l n W Hto).
Qed.

Lemma po_listed s f : network s -> f ∈ pos s -> listed s (sidx f).
Proof. intros W Hf%take_elem. right. exists f. split; [done|apply rtc_refl]. Qed.

(* cleanup into an existing network *)
Lemma cleanup_into_spec s d leaves : network s -> reachable d -> Forall (valid d) leaves -> length leaves = npi s ->
  wp (cleanup_into s leaves) d (fun fs d' => reachable d' /\ ext d d' /\ length fs = npo s /\ Forall (valid d') fs /\
    forall e v, valuation s (leaf_env d leaves e) v -> map (sval (ev d' e)) fs = map (sval v) (pos s)).
Proof.
  intros W D Hv Hl. unfold cleanup_into. apply wp_bnd.
  eapply wp_mono; [by apply cleanup_impl_spec|]. intros m d' (Hw & He & Hlm & Himg). cbn beta.
  eapply wp_mono; [eapply (mapM_wp _ (fun p fs d'' => d'' = d' /\ length fs = length p /\ Forall (valid d') fs /\
    forall e v, valuation s (leaf_env d leaves e) v -> map (sval (ev d' e)) fs = map (sval v) p))|].
  - split; [done|]. split; [done|]. split; [done|]. done.
  - intros p f q fs d'' Epq (-> & Hlf & Hvf & Hval).
    destruct (Himg (sidx f)) as (g & Hg & Hvg & Hvalg).
    { apply po_listed; [done|]. rewrite Epq. apply elem_of_app. right. apply elem_of_list_here. }
    apply wp_bnd. eapply wp_lift; [exact Hg|]. apply wp_ret. split; [done|].
    split; [rewrite !app_length; cbn; lia|]. split.
    + apply Forall_app. split; [done|]. apply Forall_singleton. done.
    + intros e v V. rewrite !map_app, (Hval e v V). cbn. by rewrite sval_sxor, (Hvalg e v V).
  - intros fs d'' (-> & Hlf & Hvf & Hval). cbn beta. split; [done|]. split; [done|]. split; [|done].
    rewrite Hlf. unfold pos. rewrite take_length. pose proof (net_npo _ W). lia.
Qed.

(* ---- inputs ---- *)
Definition dropped_pi (s : aig) (rdp : bool) (n : nat) : Prop := rdp = true /\ fanout_size s n = Some 0%N.

Lemma kept_nil {A} (P : A -> Prop) : kept [] P [].
Proof. split; [constructor|]. intros k. split; [by intros ?%elem_of_nil|by intros (n & ? & _)]. Qed.

Lemma sorted_snoc l n : StronglySorted lt l -> Forall (fun k => k < n) l -> StronglySorted lt (l ++ [n]).
Proof.
  induction 1 as [|k l Hs IH Hf]; cbn; intros Hl; [repeat constructor|].
  apply Forall_cons in Hl as [Hk Hl]. constructor; [by apply IH|]. apply Forall_app. split; [done|by repeat constructor].
Qed.

Lemma kept_lt {A} (ns : list A) P l : kept ns P l -> Forall (fun k => k < length ns) l.
Proof.
  intros [_ H]. apply Forall_forall. intros k Hk. apply H in Hk as (n & Hn & _). by apply lookup_lt_Some in Hn.
Qed.

Lemma kept_snoc_yes {A} (ns : list A) (P : A -> Prop) l n : kept ns P l -> P n -> kept (ns ++ [n]) P (l ++ [length ns]).
Proof.
  intros H Hn. pose proof (kept_lt _ _ _ H) as Hlt. destruct H as [Hs H]. split; [by apply sorted_snoc|].
  intros k. rewrite elem_of_app, elem_of_list_singleton, H. split.
  - intros [(x & Hx & Px)| ->]; [exists x|exists n; by rewrite lookup_snoc_eq].
    split; [by apply lookup_app_l_Some|done].
  - intros (x & Hx & Px). apply lookup_snoc in Hx as [Hx|[-> _]]; [left; by exists x|by right].
Qed.

Lemma kept_snoc_no {A} (ns : list A) (P : A -> Prop) l n : kept ns P l -> ~ P n -> kept (ns ++ [n]) P l.
Proof.
  intros [Hs H] Hn. split; [done|]. intros k. rewrite H. split; intros (x & Hx & Px); exists x; (split; [|done]).
  - by apply lookup_app_l_Some.
  - apply lookup_snoc in Hx as [Hx|[-> ->]]; [done|done].
Qed.

Lemma clone_inputs_spec nb s rdp : 0 < nb -> network s ->
  wp (clone_inputs s rdp) (aig_init_n nb) (fun leaves d => reachable d /\ Forall (valid d) leaves /\
    length leaves = npi s /\ outs d = [] /\ npo d = 0 /\ npi d = length (ins d) /\
    (forall n a b, ks d !! n = Some (a, b) -> a = b) /\
    exists ki, kept (pis s) (fun n => ~ dropped_pi s rdp n) ki /\ length ki = length (ins d) /\
      (forall j k, ki !! j = Some k -> exists n, ins d !! j = Some n /\ leaves !! k = Some (Sig n false)) /\
      (forall k, k < npi s -> k ∉ ki -> leaves !! k = Some (get_constant false))).
Proof.
  intros Hnb W. unfold clone_inputs.
  eapply wp_mono; [eapply (mapM_wp _ (fun p leaves d => reachable d /\ Forall (valid d) leaves /\
    length leaves = length p /\ outs d = [] /\ npo d = 0 /\ npi d = length (ins d) /\
    (forall n a b, ks d !! n = Some (a, b) -> a = b) /\
    exists ki, kept p (fun n => ~ dropped_pi s rdp n) ki /\ length ki = length (ins d) /\
      (forall j k, ki !! j = Some k -> exists n, ins d !! j = Some n /\ leaves !! k = Some (Sig n false)) /\
      (forall k, k < length p -> k ∉ ki -> leaves !! k = Some (get_constant false))))|].
  - split; [by constructor|]. split; [done|]. split; [done|]. split; [done|]. split; [done|]. split; [done|]. split.
    + intros [|n] a b; cbn; [by intros [= <- <-]|done].
    + exists []. split; [apply kept_nil|]. split; [done|]. split; [intros j k H; by rewrite lookup_nil in H|].
      cbn. intros; lia.
  - intros p n q leaves d Epq (Hr & Hv & Hl & Ho & Hnpo & Hnpi & Hks & ki & Hki & Hlki & Hin & Hout).
    assert (Hn : n < size s).
    { pose proof (net_ins_valid s W) as Hi. rewrite Forall_forall in Hi. apply Hi.
      apply (take_elem _ (npi s)). fold (pis s). rewrite Epq. apply elem_of_app. right. apply elem_of_list_here. }
    rewrite <- (net_fo s W) in Hn. destruct (lookup_lt_is_Some_2 (fo s) n Hn) as [h Hh].
    assert (Hf : fanout_size s n = Some (h mod 2 ^ 31)%N) by (unfold fanout_size; by rewrite Hh).
    apply wp_bnd. eapply wp_lift; [exact Hf|]. pose proof (reachable_wf d Hr) as Hwd.
    destruct (rdp && bool_decide ((h mod 2 ^ 31)%N = 0%N)) eqn:Ed.
    + apply andb_prop in Ed as [Hrdp Hz%bool_decide_eq_true].
      assert (Hdr : dropped_pi s rdp n) by (split; [done|by rewrite Hf, Hz]).
      apply wp_ret. split; [done|]. split; [apply Forall_app; split; [done|]; apply Forall_singleton; by apply valid_const|].
      split; [rewrite !app_length; cbn; lia|]. split; [done|]. split; [done|]. split; [done|]. split; [done|].
      exists ki. split; [by apply kept_snoc_no; [|tauto]|]. split; [done|]. split.
      * intros j k Hjk. destruct (Hin j k Hjk) as (x & Hx & Hlv). exists x. split; [done|]. by apply lookup_app_l_Some.
      * rewrite app_length. cbn. intros k Hk Hkn. destruct (decide (k < length p)) as [Hkp|Hkp].
        -- rewrite lookup_app_l by lia. by apply Hout.
        -- assert (k = length leaves) as -> by lia. apply lookup_snoc_eq.
    + assert (Hdr : ~ dropped_pi s rdp n).
      { intros [-> Hz]. rewrite Hf in Hz. rewrite bool_decide_eq_true_2 in Ed by congruence. done. }
      eapply wp_mono; [by apply create_pi_r|]. cbn beta.
      intros f d' (Hr' & -> & Hks' & Hins' & Hout' & Hnpi' & Hnpo' & _).
      split; [done|]. assert (Hsz : size d' = S (size d)) by (unfold size; rewrite Hks', app_length; cbn; lia).
      split; [|split; [|split; [|split; [|split; [|split]]]]].
      * apply Forall_app. split; [|apply Forall_singleton; unfold valid; cbn; lia].
        eapply Forall_impl; [exact Hv|]. unfold valid. intros; lia.
      * rewrite !app_length. cbn. lia.
      * by rewrite Hout'.
      * lia.
      * rewrite Hins', app_length. cbn. lia.
      * intros i a b Hi. rewrite Hks' in Hi. apply lookup_snoc in Hi as [Hi|[_ Hi]]; [by eapply Hks|congruence].
      * exists (ki ++ [length p]). split; [by apply kept_snoc_yes|]. split; [rewrite Hins', !app_length; cbn; lia|]. split.
        -- intros j k Hjk. rewrite Hins'. apply lookup_snoc in Hjk as [Hjk|[-> ->]].
           ++ destruct (Hin j k Hjk) as (x & Hx & Hlv). exists x. split; by apply lookup_app_l_Some.
           ++ exists (size d). rewrite Hlki, <- Hl. split; apply lookup_snoc_eq.
        -- rewrite app_length. cbn. intros k Hk Hkn. apply not_elem_of_app in Hkn as [Hkn Hkn'].
           rewrite elem_of_list_singleton in Hkn'. rewrite lookup_app_l by lia. apply Hout; [lia|done].
  - intros leaves d (Hr & Hv & Hl & Ho & Hnpo & Hnpi & Hks & ki & Hki & Hlki & Hin & Hout). cbn beta.
    rewrite pis_length in Hl, Hout by done. repeat (split; [done|]). by exists ki.
Qed.

(* ---- outputs ---- *)
(* the signal f of d is a constant or (up to complement) an input *)
Definition trivial_out (d : aig) (f : signal) : Prop := sidx f = 0 \/ sidx f ∈ ins d.

Lemma is_pi_spec d n : wf d -> npi d = length (ins d) -> n < size d ->
  exists b, is_pi d n = Some b /\ (b = true -> n = 0 \/ n ∈ ins d) /\ (n ∈ ins d -> b = true).
Proof.
  intros W Hnpi Hn. destruct (lookup_lt_is_Some_2 (ks d) n Hn) as [[a b] E]. unfold is_pi. rewrite E. cbn.
  eexists. split; [done|]. pose proof (wf_network d W) as WN. split.
  - intros [Hab _]%andb_prop. apply bool_decide_eq_true in Hab as ->. by destruct (net_ci _ WN n b E); auto.
  - intros [k Hk]%elem_of_list_lookup. destruct (net_in _ WN k n Hk) as [_ E']. rewrite E in E'. injection E' as -> ->.
    rewrite bool_decide_eq_true_2 by done. cbn. rewrite sdata_sig_of_data.
    apply bool_decide_eq_true_2. apply lookup_lt_Some in Hk. lia.
Qed.

Lemma clone_outputs_spec s d m rrp : reachable d -> npi d = length (ins d) -> outs d = [] -> npo d = 0 ->
  (forall po, po ∈ pos s -> exists f, m !! sidx po = Some f /\ valid d f) ->
  wp (clone_outputs s m rrp) d (fun _ d' => reachable d' /\ ks d' = ks d /\ ins d' = ins d /\ npi d' = npi d /\
    npo d' = length (outs d') /\
    exists ko, kept (pos s) (fun po => forall f, m !! sidx po = Some f -> ~ (rrp = true /\ trivial_out d f)) ko /\
      length ko = length (outs d') /\
      forall j k, ko !! j = Some k -> exists po f, pos s !! k = Some po /\ m !! sidx po = Some f /\
        outs d' !! j = Some (sxor f (scompl po))).
Proof.
  intros Hr Hnpi Ho Hnpo Hm. unfold clone_outputs.
  eapply wp_mono; [eapply (mapM_wp _ (fun p (_ : list unit) d' => reachable d' /\ ks d' = ks d /\ ins d' = ins d /\ npi d' = npi d /\
    npo d' = length (outs d') /\
    exists ko, kept p (fun po => forall f, m !! sidx po = Some f -> ~ (rrp = true /\ trivial_out d f)) ko /\
      length ko = length (outs d') /\
      forall j k, ko !! j = Some k -> exists po f, p !! k = Some po /\ m !! sidx po = Some f /\
        outs d' !! j = Some (sxor f (scompl po))))|].
  - repeat (split; [done|]). split; [by rewrite Ho|]. exists []. split; [apply kept_nil|]. split; [by rewrite Ho|].
    intros j k H. by rewrite lookup_nil in H.
  - intros p po q us d' Epq (Hr' & Hks & Hins & Hnpi' & Hnpo' & ko & Hko & Hlko & Hkeep).
    destruct (Hm po) as (f & Hf & Hvf).
    { rewrite Epq. apply elem_of_app. right. apply elem_of_list_here. }
    assert (Hvf' : valid d' f) by (unfold valid, size in *; by rewrite Hks).
    apply wp_bnd. eapply wp_lift; [exact Hf|]. apply wp_bnd, wp_get. apply wp_bnd.
    destruct (is_pi_spec d' (sidx f)) as (b & Hb & Hb1 & Hb2); [by apply reachable_wf|congruence|exact Hvf'|].
    eapply wp_lift; [exact Hb|].
    assert (Htr : b || bool_decide (sidx f = 0) = true <-> trivial_out d f).
    { unfold trivial_out. rewrite <- Hins. rewrite orb_true_iff, bool_decide_eq_true. tauto. }
    destruct (rrp && (b || bool_decide (sidx f = 0))) eqn:Ed.
    + apply andb_prop in Ed as [Hrrp Ht%Htr]. apply wp_ret. repeat (split; [done|]).
      exists ko. split; [apply kept_snoc_no; [done|]; intros Hx; by apply (Hx f Hf)|]. split; [done|].
      intros j k Hjk. destruct (Hkeep j k Hjk) as (po' & f' & ? & ? & ?). exists po', f'. split; [by apply lookup_app_l_Some|done].
    + assert (Ht : ~ (rrp = true /\ trivial_out d f)).
      { intros [-> Ht%Htr]. rewrite Ht in Ed. done. }
      apply wp_bnd. eapply wp_mono; [apply create_po_r; [done|by apply valid_sxor]|]. cbn beta.
      intros r d'' (Hr'' & Hks' & Hins' & Hout' & Hnpi'' & Hnpo'' & _). apply wp_ret.
      split; [done|]. split; [congruence|]. split; [congruence|]. split; [congruence|].
      split; [rewrite Hout', app_length; cbn; lia|].
      exists (ko ++ [length p]). split; [|split].
      * apply kept_snoc_yes; [done|]. intros f' Hf'. rewrite Hf in Hf'. by injection Hf' as <-.
      * rewrite Hout', !app_length. cbn. lia.
      * intros j k Hjk. rewrite Hout'. apply lookup_snoc in Hjk as [Hjk|[-> ->]].
        -- destruct (Hkeep j k Hjk) as (po' & f' & ? & ? & ?). exists po', f'.
           split; [by apply lookup_app_l_Some|]. split; [done|]. by apply lookup_app_l_Some.
        -- exists po, f. split; [apply lookup_snoc_eq|]. split; [done|]. rewrite Hlko. apply lookup_snoc_eq.
  - intros us d' (Hr' & Hks & Hins & Hnpi' & Hnpo' & Hex). cbn beta. done.
Qed.

(* ---- values of nodes in use ---- *)
Lemma in_use_fanin s n c : in_use s n -> fanin s n c -> in_use s c.
Proof. intros (f & Hf & Hp) Hc. exists f. split; [done|]. by eapply rtc_r. Qed.

Lemma valuation_agree s env env' v v' : network s -> valuation s env v -> valuation s env' v' ->
  (forall k n, ins s !! k = Some n -> in_use s n -> env k = env' k) ->
  forall n, n < size s -> in_use s n -> v n = v' n.
Proof.
  intros W V V' He. destruct (net_acyclic _ W) as [rank Hrank].
  assert (G : forall r n, rank n < r -> n < size s -> in_use s n -> v n = v' n).
  { induction r as [|r IH]; intros n Hr Hn Hu; [lia|].
    destruct (net_cases s n W Hn) as [->|[[k Hk]|(Hn0 & a & b & E & Hab)]].
    - by rewrite (val_const _ _ _ V), (val_const _ _ _ V').
    - rewrite (val_input _ _ _ V k n Hk), (val_input _ _ _ V' k n Hk). by eapply He.
    - rewrite (val_gate _ _ _ V n a b E Hn0 Hab), (val_gate _ _ _ V' n a b E Hn0 Hab). unfold sval.
      assert (Fa : fanin s n (sidx a)) by (exists a, b; auto).
      assert (Fb : fanin s n (sidx b)) by (exists a, b; auto).
      pose proof (Hrank _ _ Fa). pose proof (Hrank _ _ Fb).
      rewrite (IH (sidx a)), (IH (sidx b)); [done|lia|by eapply net_gate|by eapply in_use_fanin|
        lia|by eapply net_gate|by eapply in_use_fanin]. }
  intros n Hn Hu. eapply (G (S (rank n))); [lia|done|done].
Qed.

(* The complete description of cleanup_dangling. *)
Lemma cleanup_dangling_spec nb s rdp rrp : 0 < nb -> network s ->
  exists d ki ko m leaves d0, cleanup_dangling nb s rdp rrp = Some d /\ reachable d /\
    kept (pis s) (fun n => ~ dropped_pi s rdp n) ki /\
    kept (pos s) (fun po => forall f, m !! sidx po = Some f -> ~ (rrp = true /\ trivial_out d f)) ko /\
    length (ins d) = length ki /\ npi d = length ki /\ length (outs d) = length ko /\ npo d = length ko /\
    (forall j k, ko !! j = Some k -> exists po f, pos s !! k = Some po /\ m !! sidx po = Some f /\
        outs d !! j = Some (sxor f (scompl po))) /\
    (forall n, listed s n -> image s d (fun e k => match list_find (eq k) ki with Some (j, _) => e j | None => false end) m n) /\
    (* how the result was made *)
    reachable d0 /\ Forall (valid d0) leaves /\ length leaves = npi s /\ ins d = ins d0 /\
    (forall n a b, ks d0 !! n = Some (a, b) -> a = b) /\
    (forall j k, ki !! j = Some k -> exists n, ins d0 !! j = Some n /\ leaves !! k = Some (Sig n false)) /\
    (forall k, k < npi s -> k ∉ ki -> leaves !! k = Some (get_constant false)) /\
    exists d1, cleanup_impl s leaves d0 = Some (m, d1) /\ ks d = ks d1.
Proof.
  intros Hnb W. unfold cleanup_dangling, cleanup_m.
  pose proof (clone_inputs_spec nb s rdp Hnb W) as H0. apply wp_elim in H0 as (leaves & d0 & E0 & H0).
  destruct H0 as (Hr0 & Hv0 & Hl0 & Ho0 & Hnpo0 & Hnpi0 & Hks0 & ki & Hki & Hlki & Hin & Hnot).
  pose proof (cleanup_impl_spec s d0 leaves W Hr0 Hv0 Hl0) as H1. apply wp_elim in H1 as (m & d1 & E1 & Hr1 & He1 & Hlm & Himg).
  pose proof (clone_outputs_spec s d1 m rrp Hr1) as H2.
  rewrite (ext_npi _ _ He1), (ext_ins _ _ He1), (ext_outs _ _ He1), (ext_npo _ _ He1) in H2.
  specialize (H2 Hnpi0 Ho0 Hnpo0).
  assert (Hpo : forall po, po ∈ pos s -> exists f, m !! sidx po = Some f /\ valid d1 f).
  { intros po Hpo. destruct (Himg (sidx po)) as (f & ? & ? & _); [by apply po_listed|]. by exists f. }
  specialize (H2 Hpo). apply wp_elim in H2 as (us & d & E2 & Hr & Hks & Hins & Hnpi & Hnpo & ko & Hko & Hlko & Hout).
  exists d, ki, ko, m, leaves, d0. unfold bnd. rewrite E0, E1, E2. cbn. split; [done|]. split; [done|]. split; [done|].
  split; [|split; [|split; [|split; [|split; [|split; [|split]]]]]].
  - unfold trivial_out in *. rewrite Hins. rewrite (ext_ins _ _ He1) in Hko. exact Hko.
  - congruence.
  - congruence.
  - done.
  - congruence.
  - done.
  - intros n Hn. destruct (Himg n Hn) as (f & Hf & Hvf & Hval). exists f. split; [done|].
    split; [unfold valid, size in *; by rewrite Hks|]. intros e v V.
    assert (Hev : sval (ev d e) f = sval (ev d1 e) f) by (unfold ev; by rewrite Hks). rewrite Hev. apply Hval.
    destruct V as [V1 V2 V3]. split; [done| |done]. intros k n' Hk. rewrite (V2 k n' Hk). unfold leaf_env.
    destruct (decide (k ∈ ki)) as [Hkk|Hkk].
    + destruct (list_find_elem_of (eq k) ki k Hkk eq_refl) as [[j x] Hj]. rewrite Hj.
      apply list_find_Some in Hj as (Hjx & <- & _). destruct (Hin j k Hjx) as (i & Hi & ->).
      unfold sval. cbn. rewrite xorb_false_r. symmetry. apply ev_input; [by apply reachable_wf|done].
    + assert (list_find (eq k) ki = None) as ->.
      { apply list_find_None. rewrite Forall_forall. intros x Hx. cbn. intros <-. done. }
      destruct (decide (k < npi s)) as [Hlt|Hge].
      * rewrite (Hnot k Hlt Hkk). rewrite sval_const; [done|by apply reachable_wf].
      * rewrite lookup_ge_None_2; [done|lia].
  - repeat (split; [done|]). 
    exists d1. split; done.
Qed.

(* ---- structure of the copy ---- *)
Definition dom (s : aig) (p : list nat) (n : nat) : Prop := in_use s n /\ n <> 0 /\ (n ∈ ins s \/ n ∈ p).

Record copied (s d : aig) (p : list nat) (m : list signal) : Prop := {
  cp_map : forall n, dom s p n -> exists i, m !! n = Some (Sig i false) /\ 0 < i < size d;
  cp_inj : forall n n' f, dom s p n -> dom s p n' -> m !! n = Some f -> m !! n' = Some f -> n = n';
  cp_key : forall n a b f, n ∈ p -> in_use s n -> n <> 0 -> ks s !! n = Some (a, b) -> a <> b -> m !! n = Some f ->
    exists fa fb, dom s p (sidx a) /\ dom s p (sidx b) /\ m !! sidx a = Some fa /\ m !! sidx b = Some fb /\
      ks d !! sidx f = Some (order (sxor fa (scompl a)) (sxor fb (scompl b)));
  cp_gate : forall i a b, ks d !! i = Some (a, b) -> a <> b ->
    exists n, n ∈ p /\ in_use s n /\ is_gate s n /\ m !! n = Some (Sig i false)
}.

Lemma order_inj x y x' y' : order x y = order x' y' -> (x = x' /\ y = y') \/ (x = y' /\ y = x').
Proof.
  destruct (order_cases x y) as [[-> _]|[-> _]], (order_cases x' y') as [[-> _]|[-> _]]; intros [= -> ->]; auto.
Qed.

Lemma gate_dom s n c : strashed s -> is_gate s n -> in_use s n -> fanin s n c -> c <> 0.
Proof.
  intros St (a & b & E & Hn & Hab) Hu (a' & b' & E' & _ & _ & Hc). rewrite E in E'. injection E' as <- <-.
  destruct (str_gate _ St n a b Hu E Hn Hab). destruct Hc; subst; lia.
Qed.

Lemma copy_node_struct s d p m n : network s -> strashed s -> reachable d -> length m = size s ->
  n < size s -> n ∉ p -> (n ∈ 0 :: ins s \/ in_use s n) ->
  (forall c, fanin s n c -> c ∈ p) -> copied s d p m ->
  wp (copy_node s m n) d (fun m' d' => reachable d' /\ length m' = size s /\ copied s d' (p ++ [n]) m').
Proof.
  intros W St Hr Hlen Hn Hnp Hlist Hfan C. unfold copy_node.
  destruct (lookup_lt_is_Some_2 (ks s) n Hn) as [[a b] E].
  apply wp_bnd. eapply wp_lift; [unfold is_ci; rewrite E; reflexivity|]. cbn.
  destruct (decide (n ∈ 0 :: ins s)) as [Hin|Hin].
  - assert (bool_decide (n = 0) || bool_decide (a = b) = true) as ->.
    { apply elem_of_cons in Hin as [->|Hin]; [done|]. apply elem_of_list_lookup in Hin as [k Hk].
      destruct (net_in _ W k n Hk) as [_ E']. rewrite E in E'. injection E' as -> ->.
      rewrite (bool_decide_eq_true_2 (sig_of_data k = sig_of_data k)) by done. apply orb_true_r. }
    apply wp_ret. split; [done|]. split; [done|]. destruct C as [C1 C2 C3 C4].
    assert (Hdom : forall k, dom s (p ++ [n]) k -> dom s p k).
    { intros k (Hu & Hk0 & Hk). split; [done|]. split; [done|]. rewrite elem_of_app, elem_of_list_singleton in Hk.
      destruct Hk as [?|[?| ->]]; [by left|by right|]. apply elem_of_cons in Hin as [?|?]; [done|by left]. }
    split.
    + intros k Hk. by apply C1, Hdom.
    + intros k k' f Hk Hk'. by apply C2; apply Hdom.
    + intros k a' b' f Hk Hu Hk0 E' Hab. apply elem_of_app in Hk as [Hk|Hk].
      { intros Hf. destruct (C3 k a' b' f Hk Hu Hk0 E' Hab Hf) as (fa & fb & (? & ? & Hx) & (? & ? & Hy) & ?).
        exists fa, fb. split; [split; [done|]; split; [done|]; rewrite elem_of_app; tauto|].
        split; [split; [done|]; split; [done|]; rewrite elem_of_app; tauto|]. done. }
      apply elem_of_list_singleton in Hk as ->. exfalso.
      eapply (source_no_fanin s n (sidx a') W Hin). exists a', b'. auto.
    + intros i x y Hi Hxy. destruct (C4 i x y Hi Hxy) as (k & ? & ?). exists k. split; [apply elem_of_app; by left|done].
  - apply not_elem_of_cons in Hin as [Hn0 Hin].
    assert (Hab : a <> b) by (intros ->; destruct (net_ci _ W n b E); done).
    assert (Hu : in_use s n). { destruct Hlist as [Hx|?]; [|done]. apply elem_of_cons in Hx as [?|?]; done. }
    rewrite !bool_decide_eq_false_2 by done. cbn [orb].
    apply wp_bnd. eapply wp_lift; [exact E|]. cbn.
    destruct (str_gate _ St n a b Hu E Hn0 Hab) as [Ha0 Hab'].
    assert (Fa : fanin s n (sidx a)) by (exists a, b; auto).
    assert (Fb : fanin s n (sidx b)) by (exists a, b; auto).
    assert (Da : dom s p (sidx a)) by (split; [by eapply in_use_fanin|]; split; [lia|right; by apply Hfan]).
    assert (Db : dom s p (sidx b)) by (split; [by eapply in_use_fanin|]; split; [lia|right; by apply Hfan]).
    destruct (cp_map _ _ _ _ C _ Da) as (ia & Ha & Hva). destruct (cp_map _ _ _ _ C _ Db) as (ib & Hb & Hvb).
    apply wp_bnd. eapply wp_lift; [exact Ha|]. apply wp_bnd. eapply wp_lift; [exact Hb|].
    assert (Hne : ia <> ib).
    { intros ->. assert (sidx a = sidx b) by (eapply (cp_inj _ _ _ _ C); eauto). lia. }
    apply wp_bnd. eapply wp_mono; [apply create_and_new; try done|].
    + apply valid_sxor. unfold valid. cbn. lia.
    + apply valid_sxor. unfold valid. cbn. lia.
    + cbn. lia.
    + cbn. lia.
    + intros i Hi.
      assert (Hoe : (order (sxor (Sig ia false) (scompl a)) (sxor (Sig ib false) (scompl b))).1 <>
                    (order (sxor (Sig ia false) (scompl a)) (sxor (Sig ib false) (scompl b))).2).
      { destruct (order_cases (sxor (Sig ia false) (scompl a)) (sxor (Sig ib false) (scompl b))) as [[-> _]|[-> _]]; cbn; intros Hx;
          apply (f_equal sidx) in Hx; cbn in Hx; lia. }
      destruct (order (sxor (Sig ia false) (scompl a)) (sxor (Sig ib false) (scompl b))) as [x y] eqn:Eo.
      destruct (cp_gate _ _ _ _ C i x y Hi Hoe) as (n' & Hn'p & Hu' & (a' & b' & E' & Hn'0 & Hab2) & Hm').
      destruct (cp_key _ _ _ _ C n' a' b' _ Hn'p Hu' Hn'0 E' Hab2 Hm') as (fa & fb & Da' & Db' & Hfa & Hfb & Hk). cbn in Hk.
      destruct (str_gate _ St n' a' b' Hu' E' Hn'0 Hab2) as [Ha'0 Hab'2].
      rewrite Hi in Hk. injection Hk as Hk. rewrite <- Eo in Hk.
      destruct (cp_map _ _ _ _ C _ Da') as (ia' & Hia' & _). destruct (cp_map _ _ _ _ C _ Db') as (ib' & Hib' & _).
      rewrite Hfa in Hia'. injection Hia' as ->. rewrite Hfb in Hib'. injection Hib' as ->.
      assert (Hsx : forall i c j c', sxor (Sig i false) c = sxor (Sig j false) c' -> i = j /\ c = c').
      { intros i0 c j c' Hx. unfold sxor in Hx. cbn in Hx. injection Hx as -> Hc. by destruct c, c'. }
      apply order_inj in Hk as [[H1 H2]|[H1 H2]]; apply Hsx in H1 as [-> Hc1]; apply Hsx in H2 as [-> Hc2].
      * assert (Ea : sidx a = sidx a') by (eapply (cp_inj _ _ _ _ C); eauto).
        assert (Eb : sidx b = sidx b') by (eapply (cp_inj _ _ _ _ C); eauto).
        assert (a = a') as <- by (destruct a, a'; cbn in *; congruence).
        assert (b = b') as <- by (destruct b, b'; cbn in *; congruence).
        assert (n = n') as <- by (by eapply (str_uniq _ St)). done.
      * assert (Ea : sidx a = sidx b') by (eapply (cp_inj _ _ _ _ C); eauto).
        assert (Eb : sidx b = sidx a') by (eapply (cp_inj _ _ _ _ C); eauto). lia.
    + cbn beta. intros f d' (Hr' & He & Hks & ->). apply wp_ret. split; [done|]. split; [by rewrite insert_length|].
      assert (Hsz : size d' = S (size d)) by (unfold size; rewrite Hks, app_length; cbn; lia).
      assert (Hnew : <[n:=Sig (size d) false]> m !! n = Some (Sig (size d) false)) by (apply list_lookup_insert; lia).
      assert (Hold : forall k, k <> n -> <[n:=Sig (size d) false]> m !! k = m !! k) by (intros; by rewrite list_lookup_insert_ne).
      assert (Hdom : forall k, dom s (p ++ [n]) k -> k = n \/ (k <> n /\ dom s p k)).
      { intros k (? & ? & Hk). rewrite elem_of_app, elem_of_list_singleton in Hk.
        destruct (decide (k = n)); [by left|right]. split; [done|]. split; [done|]. split; [done|]. tauto. }
      assert (Hdom' : forall k, dom s p k -> k <> n /\ dom s (p ++ [n]) k).
      { intros k (? & ? & Hk). split; [intros ->; tauto|]. split; [done|]. split; [done|]. rewrite elem_of_app. tauto. }
      split.
      * intros k Hk. destruct (Hdom k Hk) as [->|[Hkn Hk']].
        -- exists (size d). split; [done|]. pose proof (wf_size d (reachable_wf d Hr)). lia.
        -- destruct (cp_map _ _ _ _ C k Hk') as (i & Hi & ?). exists i. rewrite Hold by done. split; [done|lia].
      * intros k k' f Hk Hk' Hf Hf'.
        destruct (Hdom k Hk) as [->|[Hkn Dk]], (Hdom k' Hk') as [->|[Hkn' Dk']]; [done| | |].
        -- rewrite Hnew in Hf. injection Hf as <-. rewrite Hold in Hf' by done.
           destruct (cp_map _ _ _ _ C k' Dk') as (i & Hi & ?). rewrite Hf' in Hi. injection Hi as <-. lia.
        -- rewrite Hnew in Hf'. injection Hf' as <-. rewrite Hold in Hf by done.
           destruct (cp_map _ _ _ _ C k Dk) as (i & Hi & ?). rewrite Hf in Hi. injection Hi as <-. lia.
        -- rewrite Hold in Hf, Hf' by done. by eapply (cp_inj _ _ _ _ C).
      * intros k a' b' f Hk Hu' Hk0 E' Hab2 Hf.
        destruct (decide (k = n)) as [->|Hkn].
        -- rewrite E in E'. injection E' as <- <-. rewrite Hnew in Hf. injection Hf as <-.
           exists (Sig ia false), (Sig ib false). destruct (Hdom' _ Da), (Hdom' _ Db). rewrite !Hold by done.
           repeat (split; [done|]). cbn. rewrite Hks. apply lookup_snoc_eq.
        -- assert (Hkp : k ∈ p). { apply elem_of_app in Hk as [?|Hk]; [done|]. by apply elem_of_list_singleton in Hk. }
           rewrite Hold in Hf by done.
           destruct (cp_key _ _ _ _ C k a' b' f Hkp Hu' Hk0 E' Hab2 Hf) as (fa & fb & D1 & D2 & Hfa & Hfb & Hkk).
           exists fa, fb. destruct (Hdom' _ D1), (Hdom' _ D2). rewrite !Hold by done. repeat (split; [done|]).
           rewrite Hks. by apply lookup_app_l_Some.
      * intros i x y Hi Hxy. rewrite Hks in Hi. apply lookup_snoc in Hi as [Hi|[-> _]].
        -- destruct (cp_gate _ _ _ _ C i x y Hi Hxy) as (k & Hkp & ? & ? & Hk). exists k.
           split; [apply elem_of_app; by left|]. rewrite Hold; [done|]. intros ->. done.
        -- exists n. split; [apply elem_of_app; right; apply elem_of_list_here|]. split; [done|].
           split; [by exists a, b|]. exact Hnew.
Qed.

Lemma cleanup_impl_struct s d0 leaves : network s -> strashed s -> reachable d0 ->
  (forall n a b, ks d0 !! n = Some (a, b) -> a = b) ->
  Forall (valid d0) leaves -> length leaves = npi s ->
  (forall k n, ins s !! k = Some n -> in_use s n -> k < npi s /\ exists i, leaves !! k = Some (Sig i false) /\ i ∈ ins d0) ->
  (forall k k' i, i ∈ ins d0 -> leaves !! k = Some (Sig i false) -> leaves !! k' = Some (Sig i false) -> k = k') ->
  exists l m d1, cleanup_impl s leaves d0 = Some (m, d1) /\ aig_topo s = Some l /\ copied s d1 l m.
Proof.
  intros W St Hr Hng Hv Hl Hleaf Hinj.
  pose proof (cleanup_impl_spec s d0 leaves W Hr Hv Hl) as H0. apply wp_elim in H0 as (m1 & d1 & E1 & _).
  unfold cleanup_impl in *.
  destruct (aig_topo_spec s W) as (l & El & Hto & Hlt).
  pose proof (net_size s W) as Hsz. pose proof (net_ins_nodup s W) as Hnd. apply NoDup_cons in Hnd as [H0 Hnd].
  destruct (assign_spec (pis s) leaves (<[0 := get_constant false]> (repeat (Sig 0 false) (size s))))
    as (m0 & E0 & Hm0 & Hin & Hout).
  { by rewrite pis_length. }
  { by apply pis_nodup. }
  { apply Forall_forall. intros n Hn%take_elem. rewrite insert_length, repeat_length.
    pose proof (net_ins_valid s W) as Hi. rewrite Forall_forall in Hi. by apply Hi. }
  rewrite insert_length, repeat_length in Hm0.
  exists l. unfold bnd, lift in *. rewrite E0, El in *. cbn in *. exists m1, d1. split; [done|]. split; [done|].
  assert (G : wp (foldM (copy_node s) m0 l) d0 (fun m d => copied s d l m)); [|unfold wp in G; by rewrite E1 in G].
  eapply wp_mono; [eapply (foldM_wp _ (fun p m d' => reachable d' /\ length m = size s /\ copied s d' p m))|].
  - split; [done|]. split; [done|].
    assert (Hd : forall n, dom s [] n -> exists k i, ins s !! k = Some n /\ leaves !! k = Some (Sig i false) /\
      i ∈ ins d0 /\ m0 !! n = Some (Sig i false)).
    { intros n (Hu & Hn0 & [Hi|Hx]); [|by apply elem_of_nil in Hx]. apply elem_of_list_lookup in Hi as [k Hk].
      destruct (Hleaf k n Hk Hu) as (Hlt' & i & Hi & Hid). exists k, i. split; [done|]. split; [done|]. split; [done|].
      apply (Hin k n); [|done]. unfold pis. by rewrite lookup_take. }
    split.
    + intros n Hn. destruct (Hd n Hn) as (k & i & Hk & Hlk & Hid & Hmn). exists i. split; [done|].
      apply elem_of_list_lookup in Hid as [j Hj].
      pose proof (wf_network d0 (reachable_wf d0 Hr)) as WN. destruct (net_in _ WN j i Hj) as [? E].
      apply lookup_lt_Some in E. unfold size. lia.
    + intros n n' f Hn Hn' Hf Hf'. destruct (Hd n Hn) as (k & i & Hk & Hlk & Hid & Hmn).
      destruct (Hd n' Hn') as (k' & i' & Hk' & Hlk' & Hid' & Hmn'). rewrite Hf in Hmn. rewrite Hf' in Hmn'.
      rewrite Hmn in Hmn'. injection Hmn' as <-. assert (k = k') as <- by (by eapply Hinj). congruence.
    + intros n a b f Hx. by apply elem_of_nil in Hx.
    + intros i a b Hi Hab. by apply Hng in Hi.
  - intros p n q m d' Elq (Hr' & Hlm & C).
    assert (Hnl : l !! length p = Some n) by (rewrite Elq; by apply list_lookup_middle).
    assert (Hnn : n < size s) by (by eapply Forall_lookup_1 in Hlt).
    assert (Hfan : forall c, fanin s n c -> c ∈ p).
    { intros c Hc. destruct (to_after _ _ _ _ Hto (length p) n c Hnl) as (j & Hj & Hjl); [by apply edge_fanin|].
      rewrite Elq, lookup_app_l in Hjl by done. by eapply elem_of_list_lookup_2. }
    assert (Hnp : n ∉ p).
    { pose proof (to_nodup _ _ _ _ Hto) as Hn. rewrite Elq in Hn. apply NoDup_app in Hn as (_ & Hn & _).
      intros Hx. eapply Hn; [exact Hx|apply elem_of_list_here]. }
    assert (Hls : listed s n) by (eapply topo_listed; [done|exact Hto|]; by eapply elem_of_list_lookup_2).
    pose proof (copy_node_struct s d' p m n W St Hr' Hlm Hnn Hnp Hls Hfan C) as G.
    exact G.
  - cbn beta. tauto.
Qed.

(* every gate of a cleaned-up network is in use *)
Lemma cleanup_no_dangling nb s rdp rrp d : 0 < nb -> network s -> strashed s ->
  length (ins s) = npi s -> length (outs s) = npo s ->
  (rdp = true -> forall n, n ∈ ins s -> fanout_size s n = Some 0%N -> ~ in_use s n) ->
  cleanup_dangling nb s rdp rrp = Some d ->
  forall n, is_gate d n -> in_use d n.
Proof.
  intros Hnb W St Hci Hco Hrdp Ecd.
  destruct (cleanup_dangling_spec nb s rdp rrp Hnb W) as (d' & ki & ko & m & leaves & d0 & Ecd' & Hr & Hki & Hko &
    Hli & Hnpi & Hlo & Hnpo & Hout & Himg & Hr0 & Hv0 & Hl0 & Hins & Hng & Hleaf & Hconst & d1 & Eimp & Hks).
  rewrite Ecd in Ecd'. injection Ecd' as <-.
  assert (Hpis : pis s = ins s) by (unfold pis; apply firstn_all2; lia).
  assert (Hpos : pos s = outs s) by (unfold pos; apply firstn_all2; lia).
  rewrite Hpis in *. rewrite Hpos in *.
  assert (Hrev : forall k i, i ∈ ins d0 -> leaves !! k = Some (Sig i false) -> exists j, ki !! j = Some k /\ ins d0 !! j = Some i).
  { intros k i Hi Hk. destruct (decide (k ∈ ki)) as [Hkk|Hkk].
    - apply elem_of_list_lookup in Hkk as [j Hj]. exists j. split; [done|].
      destruct (Hleaf j k Hj) as (n & Hn & Hk'). rewrite Hk in Hk'. by injection Hk' as <-.
    - assert (k < npi s) by (apply lookup_lt_Some in Hk; lia). rewrite Hconst in Hk by done. injection Hk as <-.
      exfalso. apply elem_of_list_lookup in Hi as [j Hj].
      by destruct (net_in _ (wf_network d0 (reachable_wf d0 Hr0)) j 0 Hj). }
  destruct (cleanup_impl_struct s d0 leaves W St Hr0 Hng Hv0 Hl0) as (l & m' & d1' & Eimp' & El & C).
  { intros k n Hk Hu. split; [apply lookup_lt_Some in Hk; lia|].
    assert (Hkk : k ∈ ki).
    { apply Hki. exists n. split; [done|]. intros [Hd1 Hd2]. apply (Hrdp Hd1 n); [by eapply elem_of_list_lookup_2|done|done]. }
    apply elem_of_list_lookup in Hkk as [j Hj]. destruct (Hleaf j k Hj) as (i & Hi & Hk').
    exists i. split; [done|]. by eapply elem_of_list_lookup_2. }
  { intros k k' i Hi Hk Hk'. destruct (Hrev k i Hi Hk) as (j & Hj & Hji). destruct (Hrev k' i Hi Hk') as (j' & Hj' & Hji').
    pose proof (net_ins_nodup d0 (wf_network d0 (reachable_wf d0 Hr0))) as Hnd. apply NoDup_cons in Hnd as [_ Hnd].
    assert (j = j') as <- by (eapply NoDup_lookup; eauto). congruence. }
  rewrite Eimp in Eimp'. injection Eimp' as <- <-.
  destruct (aig_topo_spec s W) as (l' & El' & Hto & _). rewrite El in El'. injection El' as <-.
  (* images of nodes in use are in use *)
  assert (Hdn : forall x y, rtc (fanin s) x y -> in_use s x -> is_gate s y -> (x ∈ l) /\
     exists fx fy, m !! x = Some fx /\ m !! y = Some fy /\ rtc (fanin d) (sidx fx) (sidx fy)).
  { intros x y Hxy. induction Hxy as [x|x z y Hxz Hzy IH]; intros Hu Hg.
    - split; [apply (topo_listed s l x W Hto); by right|].
      assert (Dx : dom s l x).
      { split; [done|]. destruct Hg as (a & b & ? & ? & ?). split; [done|]. right. apply (topo_listed s l x W Hto). by right. }
      destruct (cp_map _ _ _ _ C x Dx) as (i & Hi & _). exists (Sig i false), (Sig i false). split; [done|]. split; [done|apply rtc_refl].
    - assert (Hxl : x ∈ l) by (apply (topo_listed s l x W Hto); by right). split; [done|].
      destruct IH as (_ & fz & fy & Hfz & Hfy & Hp); [by eapply in_use_fanin|done|].
      destruct Hxz as (a & b & E & Hx0 & Hab & Hz).
      assert (Dx : dom s l x) by (split; [done|]; split; [done|]; by right).
      destruct (cp_map _ _ _ _ C x Dx) as (i & Hi & Hi0). exists (Sig i false), fy. split; [done|]. split; [done|].
      destruct (cp_key _ _ _ _ C x a b _ Hxl Hu Hx0 E Hab Hi) as (fa & fb & Da & Db & Hfa & Hfb & Hk). cbn in Hk.
      assert (Hdiff : sidx fa <> sidx fb).
      { destruct (cp_map _ _ _ _ C _ Da) as (ia & Hia & _). destruct (cp_map _ _ _ _ C _ Db) as (ib & Hib & _).
        rewrite Hfa in Hia. injection Hia as ->. rewrite Hfb in Hib. injection Hib as ->. cbn. intros ->.
        assert (sidx a = sidx b) by (eapply (cp_inj _ _ _ _ C); eauto).
        destruct (str_gate _ St x a b Hu E Hx0 Hab). lia. }
      eapply rtc_l; [|exact Hp]. cbn.
      set (o := order (sxor fa (scompl a)) (sxor fb (scompl b))) in *.
      exists o.1, o.2. rewrite Hks, <- surjective_pairing. split; [done|]. split; [lia|].
      assert (Ho : (o.1 = sxor fa (scompl a) /\ o.2 = sxor fb (scompl b)) \/ (o.1 = sxor fb (scompl b) /\ o.2 = sxor fa (scompl a))).
      { subst o. destruct (order_cases (sxor fa (scompl a)) (sxor fb (scompl b))) as [[-> _]|[-> _]]; cbn; auto. }
      assert (Hzz : sidx fz = sidx fa \/ sidx fz = sidx fb) by (destruct Hz as [-> | ->]; [left|right]; congruence).
      destruct Ho as [[-> ->]|[-> ->]]; (split; [intros Hx; apply (f_equal sidx) in Hx; cbn in Hx; congruence|cbn; tauto]). }
  intros i (a & b & E & Hi0 & Hab). rewrite Hks in E.
  destruct (cp_gate _ _ _ _ C i a b E Hab) as (n & Hnl & Hu & Hg & Hmn).
  pose proof Hu as (f & Hf & Hp).
  destruct (Hdn (sidx f) n Hp) as (Hfl & fx & fy & Hfx & Hfy & Hpath); [exists f; by split; [|apply rtc_refl]|done|].
  rewrite Hmn in Hfy. injection Hfy as <-. cbn in Hpath.
  assert (Hk : exists k, outs s !! k = Some f) by (by apply elem_of_list_lookup). destruct Hk as [k Hk].
  assert (Hkk : k ∈ ko).
  { apply Hko. exists f. split; [done|]. intros f' Hf'. rewrite Hfx in Hf'. injection Hf' as <-. intros [_ Ht].
    assert (Hnf : forall c, ~ fanin d (sidx fx) c).
    { intros c. apply source_no_fanin; [by apply wf_network, reachable_wf|]. destruct Ht as [->|?]; [apply elem_of_list_here|by apply elem_of_list_further]. }
    inversion Hpath as [|x y z Hxy]; subst.
    - apply (Hnf (sidx a)). exists a, b. rewrite Hks. auto.
    - by apply (Hnf y). }
  apply elem_of_list_lookup in Hkk as [j Hj]. destruct (Hout j k Hj) as (po & f' & Hpo & Hf' & Hoj).
  rewrite Hk in Hpo. injection Hpo as <-. rewrite Hfx in Hf'. injection Hf' as <-.
  exists (sxor fx (scompl f)). split; [by eapply elem_of_list_lookup_2|done].
Qed.

Lemma wf_strashed s : wf s -> strashed s.
Proof.
  intros W. split.
  - intros n a b _ E _ Hab. destruct (wf_gate _ W n a b E Hab) as (? & ? & ?). lia.
  - intros n m a b _ _ E E' Hab. by eapply (wf_uniq _ W).
Qed.

(* ---- miter ---- *)
Lemma fresh_pis {A} nb (l : list A) : 0 < nb ->
  wp (mapM (fun _ => create_pi) l) (aig_init_n nb) (fun fs d => reachable d /\ Forall (valid d) fs /\
    length fs = length l /\ npi d = length l /\ length (ins d) = length l /\ outs d = [] /\ npo d = 0 /\
    forall k f, fs !! k = Some f -> exists i, f = Sig i false /\ ins d !! k = Some i).
Proof.
  intros Hnb. eapply (mapM_wp _ (fun p fs d => reachable d /\ Forall (valid d) fs /\
    length fs = length p /\ npi d = length p /\ length (ins d) = length p /\ outs d = [] /\ npo d = 0 /\
    forall k f, fs !! k = Some f -> exists i, f = Sig i false /\ ins d !! k = Some i)).
  - split; [by constructor|]. repeat (split; [done|]). intros k f H. by rewrite lookup_nil in H.
  - intros p x q fs d _ (Hr & Hv & Hl & Hnpi & Hli & Ho & Hnpo & Hk).
    eapply wp_mono; [by apply create_pi_r|]. cbn beta.
    intros f d' (Hr' & -> & Hks' & Hins' & Hout' & Hnpi' & Hnpo' & _).
    assert (Hsz : size d' = S (size d)) by (unfold size; rewrite Hks', app_length; cbn; lia).
    split; [done|]. split.
    { apply Forall_app. split; [|apply Forall_singleton; unfold valid; cbn; lia].
      eapply Forall_impl; [exact Hv|]. unfold valid. intros; lia. }
    rewrite !app_length, Hins', app_length. cbn. repeat (split; [congruence || lia|]).
    intros k f Hf. apply lookup_snoc in Hf as [Hf|[-> ->]].
    + destruct (Hk k f Hf) as (i & -> & Hi). exists i. split; [done|]. by apply lookup_app_l_Some.
    + exists (size d). split; [done|]. rewrite Hl, <- Hli. apply lookup_snoc_eq.
Qed.

Lemma leaf_env_inputs d leaves n e : wf d -> length leaves = n ->
  (forall k f, leaves !! k = Some f -> exists i, f = Sig i false /\ ins d !! k = Some i) ->
  forall k, k < n -> leaf_env d leaves e k = e k.
Proof.
  intros W Hl Hk k Hlt. unfold leaf_env. destruct (lookup_lt_is_Some_2 leaves k) as [f Hf]; [lia|]. rewrite Hf.
  destruct (Hk k f Hf) as (i & -> & Hi). unfold sval. cbn. rewrite xorb_false_r. by apply ev_input.
Qed.

Lemma xor_pairs_spec l1 : forall l2 d, reachable d -> Forall (valid d) l1 -> Forall (valid d) l2 -> length l1 = length l2 ->
  wp (xor_pairs l1 l2) d (fun fs d' => reachable d' /\ ext d d' /\ Forall (valid d') fs /\
    forall e, existsb (sval (ev d' e)) fs = negb (bool_decide (map (sval (ev d e)) l1 = map (sval (ev d e)) l2))).
Proof.
  induction l1 as [|x r1 IH]; intros [|y r2] d Hr H1 H2 Hl; try done.
  - apply wp_ret. split; [done|]. split; [apply ext_refl|]. split; [done|]. done.
  - apply Forall_cons in H1 as [Hx H1]. apply Forall_cons in H2 as [Hy H2]. cbn [xor_pairs].
    bstep create_xor_r f d1 Hr1 He1 Hf Hval.
    apply wp_bnd. eapply wp_mono.
    { apply (IH r2 d1); [done| | |by injection Hl].
      - eapply Forall_impl; [exact H1|]. intros. by eapply ext_valid.
      - eapply Forall_impl; [exact H2|]. intros. by eapply ext_valid. }
    intros fs d2 (Hr2 & He2 & Hfs & Hval2). cbn beta. apply wp_ret.
    split; [done|]. split; [by eapply ext_trans|]. split.
    { constructor; [by eapply ext_valid|done]. }
    intros e. cbn. rewrite Hval2, (ext_sval _ _ _ _ He2 Hf), Hval.
    rewrite (map_ext_in (sval (ev d1 e)) (sval (ev d e)) r1), (map_ext_in (sval (ev d1 e)) (sval (ev d e)) r2).
    + do 2 case_bool_decide; destruct (sval (ev d e) x) eqn:Ex, (sval (ev d e) y) eqn:Ey; cbn; try done; exfalso; congruence.
    + intros a Ha%elem_of_list_In. apply ext_sval; [done|]. rewrite Forall_forall in H2. by apply H2.
    + intros a Ha%elem_of_list_In. apply ext_sval; [done|]. rewrite Forall_forall in H1. by apply H1.
Qed.

Lemma valuation_env s env env' v : (forall k, k < length (ins s) -> env k = env' k) -> valuation s env v -> valuation s env' v.
Proof.
  intros He [V1 V2 V3]. split; [done| |done]. intros k n Hk. rewrite <- He by (by apply lookup_lt_Some in Hk). by apply V2.
Qed.

Lemma miter_spec nb s1 s2 : 0 < nb -> network s1 -> network s2 ->
  length (ins s1) = npi s1 -> length (ins s2) = npi s2 ->
  npi s1 = npi s2 -> npo s1 = npo s2 ->
  exists d, miter nb s1 s2 = Some (Some d) /\ reachable d /\ npi d = npi s1 /\ length (ins d) = npi s1 /\ npo d = 1 /\ length (outs d) = 1 /\
    forall env l1 l2, computes s1 env l1 -> computes s2 env l2 -> computes d env [negb (bool_decide (l1 = l2))].
Proof.
  intros Hnb W1 W2 Hc1 Hc2 Hi Ho.
  assert (G : wp (miter_m s1 s2) (aig_init_n nb) (fun _ d => reachable d /\ npi d = npi s1 /\ length (ins d) = npi s1 /\ npo d = 1 /\ length (outs d) = 1 /\
    forall env l1 l2, computes s1 env l1 -> computes s2 env l2 -> computes d env [negb (bool_decide (l1 = l2))])).
  { unfold miter_m. apply wp_bnd. eapply wp_mono; [by apply fresh_pis|].
    intros ps d0 (Hr0 & Hv0 & Hl0 & Hnpi0 & Hli0 & Ho0 & Hnpo0 & Hk0). cbn beta. rewrite seq_length in *.
    apply wp_bnd. eapply wp_mono; [by apply cleanup_into_spec|].
    intros f1 d1 (Hr1 & He1 & Hl1 & Hv1 & Hval1). cbn beta.
    apply wp_bnd. eapply wp_mono; [apply cleanup_into_spec; [done|done| |lia]|].
    { eapply Forall_impl; [exact Hv0|]. intros. by eapply ext_valid. }
    intros f2 d2 (Hr2 & He2 & Hl2 & Hv2 & Hval2). cbn beta.
    apply wp_bnd. eapply wp_mono; [apply xor_pairs_spec; [done| |done|lia]|].
    { eapply Forall_impl; [exact Hv1|]. intros. by eapply ext_valid. }
    intros xs d3 (Hr3 & He3 & Hv3 & Hval3). cbn beta.
    bstep create_nary_or_r f d4 Hr4 He4 Hvf Hval4.
    apply wp_bnd. eapply wp_mono; [by apply create_po_r|]. cbn beta.
    intros r d (Hr & Hks & Hins & Houts & Hnpi & Hnpo & _ & _). apply wp_ret.
    assert (He04 : ext d0 d4) by eauto using ext_trans.
    split; [done|]. split; [rewrite Hnpi, (ext_npi _ _ He04); done|].
    split; [rewrite Hins, (ext_ins _ _ He04); done|].
    split; [rewrite Hnpo, (ext_npo _ _ He04), Hnpo0; done|].
    split; [rewrite Houts, (ext_outs _ _ He04), Ho0; done|].
    intros env l1 l2 (v1 & V1 & ->) (v2 & V2 & ->).
    exists (ev d env). split; [by apply ev_valuation, reachable_wf|].
    assert (Hpd : pos d = [f]) by (unfold pos; rewrite Houts, (ext_outs _ _ He04), Ho0, Hnpo, (ext_npo _ _ He04), Hnpo0; done).
    rewrite Hpd. cbn. f_equal.
    assert (Hsv : sval (ev d env) f = sval (ev d4 env) f) by (unfold ev; by rewrite Hks). rewrite Hsv, Hval4, Hval3. f_equal.
    rewrite <- (Hval1 env v1).
    2:{ eapply valuation_env; [|exact V1]. intros k Hk. symmetry. apply (leaf_env_inputs d0 ps (npi s1)); [by apply reachable_wf|done|done|lia]. }
    rewrite <- (Hval2 env v2).
    2:{ eapply valuation_env; [|exact V2]. intros k Hk. symmetry. apply (leaf_env_inputs d1 ps (npi s1)); [by apply reachable_wf|done| |lia].
        intros k' g Hg. rewrite (ext_ins _ _ He1). by apply Hk0. }
    rewrite (map_ext_in (sval (ev d2 env)) (sval (ev d1 env)) f1); [done|].
    intros a Ha%elem_of_list_In. apply ext_sval; [done|]. rewrite Forall_forall in Hv1. by apply Hv1. }
  apply wp_elim in G as (u & d & E & Hd). exists d. split; [|done].
  unfold miter. rewrite decide_False by lia. rewrite E. done.
Qed.

(* ---- positions kept ---- *)
Lemma sorted_nodup l : StronglySorted lt l -> NoDup l.
Proof.
  induction 1 as [|x l Hs IH Hf]; constructor; [|done]. intros Hx. rewrite Forall_forall in Hf. specialize (Hf x Hx). lia.
Qed.
Lemma sorted_seq k n : StronglySorted lt (seq k n).
Proof.
  revert k. induction n as [|n IH]; intros k; cbn; constructor; [apply IH|].
  apply Forall_forall. intros x Hx%elem_of_seq. lia.
Qed.
Lemma sorted_ext l l' : StronglySorted lt l -> StronglySorted lt l' -> (forall k, k ∈ l <-> k ∈ l') -> l = l'.
Proof.
  intros H1 H2 H. assert (AntiSymm eq lt) by (intros x y Hx Hy; lia).
  apply (StronglySorted_unique lt); try done.
  apply NoDup_Permutation; [by apply sorted_nodup|by apply sorted_nodup|done].
Qed.
Lemma kept_all {A} (ns : list A) P l : kept ns P l -> (forall x, x ∈ ns -> P x) -> l = seq 0 (length ns).
Proof.
  intros [Hs Hl] HP. apply sorted_ext; [done|apply sorted_seq|]. intros k. rewrite Hl, elem_of_seq. split.
  - intros (n & Hn & _). apply lookup_lt_Some in Hn. lia.
  - intros Hk. destruct (lookup_lt_is_Some_2 ns k) as [n Hn]; [lia|]. exists n. split; [done|].
    eapply HP, elem_of_list_lookup_2, Hn.
Qed.
