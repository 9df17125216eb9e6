(* Proofs about substitution and deletion in AIGs. *)
From Verif Require Import Base Aig AigSem AigHash AigProofs Clean NetProofs CleanProofs Subst.

(* s' differs from s at most in the table, the counters and the scratch data *)
Record same_net (s s' : aig) : Prop := {
  sn_ks : ks s' = ks s; sn_ins : ins s' = ins s; sn_outs : outs s' = outs s;
  sn_npi : npi s' = npi s; sn_npo : npo s' = npo s; sn_lat : lat s' = lat s;
  sn_fo : length (fo s') = length (fo s); sn_ph : length (ph s') = length (ph s)
}.

Lemma same_net_refl s : same_net s s.
Proof. done. Qed.
Lemma same_net_trans s1 s2 s3 : same_net s1 s2 -> same_net s2 s3 -> same_net s1 s3.
Proof. intros [] []. split; congruence. Qed.

Lemma hash_reserve_frame sz s s' : hash_reserve sz s = Some s' -> same_net s s' /\ fo s' = fo s.
Proof.
  unfold hash_reserve. case_decide; [done|]. intros H'.
  apply bind_Some in H' as ([nl nh] & _ & [= <-]). done.
Qed.
Lemma hash_insert_frame k i s s' : hash_insert k i s = Some s' -> same_net s s' /\ fo s' = fo s.
Proof.
  unfold hash_insert, link_head. intros (s1 & H1 & H2)%bind_Some.
  assert (same_net s s1 /\ fo s1 = fo s) as [Hs Hf].
  { case_decide; [by eapply hash_reserve_frame|]. by injection H1 as <-. }
  apply bind_Some in H2 as (h & _ & (? & _ & [= <-])%bind_Some). split; [|done].
  eapply same_net_trans; [exact Hs|]. done.
Qed.
Lemma hash_erase_frame k s s' : hash_erase k s = Some s' -> same_net s s' /\ fo s' = fo s.
Proof.
  unfold hash_erase. intros (h & _ & H)%bind_Some.
  apply bind_Some in H as ([pre cur] & _ & H). apply bind_Some in H as (k' & _ & H).
  apply bind_Some in H as (n & _ & H). case_decide; [|done]. case_decide; by injection H as <-.
Qed.
Lemma incr_fanout_frame n s s' : incr_fanout n s = Some s' -> same_net s s'.
Proof.
  unfold incr_fanout. intros (h & _ & [= <-])%bind_Some. split; try done. cbn. by rewrite insert_length.
Qed.
Lemma decr_fanout_frame n s r s' : decr_fanout n s = Some (r, s') -> same_net s s'.
Proof.
  unfold decr_fanout. intros (h & _ & [= <- <-])%bind_Some. split; try done. cbn. by rewrite insert_length.
Qed.

Lemma find_chain_key fuel kl nl k cur r :
  find_chain fuel kl nl k cur = Some r -> r <> 0 -> kl !! r = Some k.
Proof.
  revert cur. induction fuel as [|fuel IH]; cbn [find_chain]; [done|]. intros cur.
  case_decide; [by intros [= <-]|]. intros (k' & Hk & H1)%bind_Some.
  case_decide; [by intros; simplify_eq|]. apply bind_Some in H1 as (n & _ & H1). by eapply IH.
Qed.
Lemma hash_find_key k s r : hash_find k s = Some r -> r <> 0 -> ks s !! r = Some k.
Proof. unfold hash_find. intros (h & _ & H)%bind_Some. by eapply find_chain_key. Qed.

Lemma take_out_frame fuel n s s' :
  (take_out fuel n s = Some (tt, s') -> same_net s s') /\
  (release fuel n s = Some (tt, s') -> same_net s s').
Proof.
  revert n s s'. induction fuel as [|fuel IH]; intros n s s'; [done|].
  cbn [take_out release]. split.
  - intros (ci & _ & (dead & _ & H)%bind_Some)%bind_Some.
    case_decide; [by injection H as <-|].
    apply bind_Some in H as (k & _ & (s1 & H1 & H)%bind_Some).
    apply bind_Some in H as ([[] s2] & H2 & H3).
    apply hash_erase_frame in H1 as [H1 _]. apply IH in H2, H3.
    eapply same_net_trans; [|eapply same_net_trans; [exact H1|eapply same_net_trans; eassumption]].
    split; try done. cbn. by rewrite insert_length.
  - intros (r & _ & H)%bind_Some. case_decide; [by injection H as <-|].
    apply bind_Some in H as ([r' s1] & H1%decr_fanout_frame & H).
    case_decide; [|by injection H as <-]. apply IH in H. by eapply same_net_trans.
Qed.

(* ---- valuations ---- *)
Definition agrees (env v : nat -> bool) (o : list bool) (s : aig) : Prop :=
  valuation s env v /\ map (sval v) (outs s) = o.

Lemma agrees_same env v o s s' : same_net s s' -> agrees env v o s -> agrees env v o s'.
Proof.
  intros [Hk Hi Ho _ _ _ _ _] [[V0 V1 V2] E]. split; [|by rewrite Ho].
  split; [done|rewrite Hi; done|rewrite Hk; done].
Qed.

Definition pair_ok (v : nat -> bool) (p : nat * signal) : Prop := v p.1 = sval v p.2.

Lemma order_val v a b : sval v (order a b).1 && sval v (order a b).2 = sval v a && sval v b.
Proof. unfold order. case_decide; [apply andb_comm|done]. Qed.

Lemma replace_in_node_val env v o n old new s r s' :
  replace_in_node n old new s = Some (r, s') -> n <> 0 -> is_gate s n ->
  v old = sval v new -> agrees env v o s ->
  agrees env v o s' /\ match r with Some p => pair_ok v p | None => True end.
Proof.
  unfold replace_in_node. intros H Hn Hg Hold HA. pose proof HA as [[V0 V1 V2] Ho].
  destruct Hg as (a & b & Hk & _ & Hab). rewrite Hk in H. cbn [mbind option_bind fst snd] in H.
  case_decide as Hc; [by injection H as <- <-|].
  set (first := bool_decide (sidx a = old)) in *.
  set (f := sxor new (scompl (if first then a else b))) in *.
  set (c := if first then b else a) in *.
  assert (Hv : v n = sval v c && sval v f).
  { rewrite (V2 n a b Hk Hn Hab). unfold f, c, first. rewrite sval_sxor, <- Hold.
    case_bool_decide as Hf; [rewrite andb_comm; f_equal|f_equal].
    - unfold sval at 1. by rewrite Hf.
    - unfold sval at 1. replace (sidx b) with old; [done|]. apply not_and_l in Hc as [Hc|Hc]; apply dec_stable in Hc; done. }
  rewrite <- order_val in Hv. destruct (order c f) as [c0 c1] eqn:Eo. cbn [fst snd] in Hv.
  case_decide as He.
  { injection H as <- <-. split; [done|]. unfold pair_ok. cbn [fst snd]. rewrite Hv.
    unfold sval. rewrite He. case_decide as Hcc; cbn.
    - rewrite Hcc. by destruct (xorb _ _).
    - rewrite V0. destruct (v (sidx c1)), (scompl c0), (scompl c1); done. }
  case_decide as Hz.
  { injection H as <- <-. split; [done|]. unfold pair_ok. cbn [fst snd]. rewrite Hv.
    unfold sval at 1. rewrite Hz, V0. destruct (scompl c0); cbn; [done|]. unfold sval; cbn. by rewrite V0. }
  apply bind_Some in H as (found & Hf & H). case_decide as Hfd.
  { injection H as <- <-. split; [done|]. unfold pair_ok. cbn [fst snd]. rewrite Hv.
    unfold sval at 3; cbn. rewrite xorb_false_r. symmetry. apply V2; [|tauto|intros ->; done].
    eapply hash_find_key; [done|tauto]. }
  apply bind_Some in H as (s1 & H1%hash_erase_frame & H).
  apply bind_Some in H as (s2 & H2%hash_insert_frame & H).
  apply bind_Some in H as (s3 & H3%incr_fanout_frame & [= <- <-]). split; [|done].
  eapply agrees_same; [exact H3|]. eapply agrees_same; [apply H2|].
  apply (agrees_same env v o s s1 (proj1 H1)) in HA as [[W0 W1 W2] Ho1].
  split; [|done]. split; [done|done|]. cbn. intros m x y Hm Hm0 Hxy.
  apply list_lookup_insert_Some in Hm as [(-> & [= <- <-] & _)|(_ & Hm)]; [done|by apply W2].
Qed.

Lemma is_gate_scan s i : is_ci s i = Some false -> i <> 0 -> is_gate s i.
Proof.
  unfold is_ci. intros ([a b] & Hk & [= H])%bind_Some Hi. apply bool_decide_eq_false in H.
  exists a, b. done.
Qed.

Lemma foldM_ind {S A B} (f : B -> A -> M S B) (I : B -> S -> Prop) l b s b' s' :
  (forall x b s b' s', x ∈ l -> I b s -> f b x s = Some (b', s') -> I b' s') ->
  I b s -> foldM f b l s = Some (b', s') -> I b' s'.
Proof.
  revert b s. induction l as [|x l IH]; cbn [foldM]; intros b s Hf HI; [by intros [= <- <-]|].
  unfold bnd. destruct (f b x s) as [[b1 s1]|] eqn:E; [|done]. intros H.
  eapply IH; [| |exact H].
  - intros. eapply Hf; [by constructor|done|done].
  - eapply Hf; [constructor|exact HI|exact E].
Qed.

Lemma scan_val env v o old new l st s st' s' :
  (forall i, i ∈ l -> i <> 0) -> v old = sval v new ->
  agrees env v o s -> Forall (pair_ok v) st ->
  foldM (scan_step old new) st l s = Some (st', s') ->
  agrees env v o s' /\ Forall (pair_ok v) st'.
Proof.
  intros Hl Hold HA Hst H.
  apply (foldM_ind _ (fun st s => agrees env v o s /\ Forall (pair_ok v) st) _ _ _ _ _) in H; [done| |done].
  clear -Hl Hold. intros i st s st' s' Hi [HA Hst] H. unfold scan_step in H.
  apply bind_Some in H as (ci & Hci & (dead & _ & H)%bind_Some).
  case_decide as Hd; [by injection H as <- <-|].
  apply bind_Some in H as ([r s1] & Hr & [= <- <-]).
  assert (ci = false) as -> by (destruct ci; [tauto|done]).
  apply (replace_in_node_val env v o) in Hr as [HA' Hp]; auto using is_gate_scan.
  split; [done|]. destruct r; [by constructor|done].
Qed.

Lemma outputs_count_frame old new l s s' :
  foldM (fun (_ : unit) o s =>
        if decide (sidx o = old /\ old <> sidx new)
        then s' ← incr_fanout (sidx new) s; Some (tt, s') else Some (tt, s)) tt l s = Some (tt, s') ->
  same_net s s'.
Proof.
  intros H.
  apply (foldM_ind (S:=aig) _ (fun _ s' => same_net s s') l) in H; [done| |done].
  intros o [] s1 [] s2 _ HI H1. case_decide; [|by injection H1 as <-].
  apply bind_Some in H1 as (s3 & H3%incr_fanout_frame & [= <-]). by eapply same_net_trans.
Qed.

Lemma replace_in_outputs_inv old new s s' :
  replace_in_outputs old new s = Some (tt, s') ->
  (is_dead s old = Some true /\ s' = s) \/
  (is_dead s old = Some false /\ exists s1, same_net s s1 /\
     s' = set_outs s1 (map (redirect old new) (outs s1))).
Proof.
  unfold replace_in_outputs. intros (dead & Hd & H)%bind_Some.
  destruct dead; [injection H as <-; by left|]. right. split; [done|].
  apply bind_Some in H as ([[] s1] & H%outputs_count_frame & [= <-]). eauto.
Qed.

Lemma replace_in_outputs_val env v o old new s s' :
  replace_in_outputs old new s = Some (tt, s') -> v old = sval v new ->
  agrees env v o s -> agrees env v o s'.
Proof.
  intros [[_ ->]|(_ & s1 & Hs & ->)]%replace_in_outputs_inv Hold HA; [done|].
  apply (agrees_same env v o s s1) in HA as [[V0 V1 V2] Ho]; [|done].
  split; [split; done|]. cbn. rewrite <- Ho, map_map. apply map_ext. intros f. unfold redirect.
  case_decide as Hf; [|done]. rewrite sval_sxor, <- Hold, <- Hf. done.
Qed.

Lemma subst_round_val env v o old new st s st' s' :
  subst_round old new st s = Some (st', s') -> v old = sval v new ->
  agrees env v o s -> Forall (pair_ok v) st -> agrees env v o s' /\ Forall (pair_ok v) st'.
Proof.
  unfold subst_round. intros H Hold HA Hst.
  apply bind_Some in H as ([st1 s1] & H1 & H). apply bind_Some in H as ([[] s2] & H2 & H).
  apply bind_Some in H as ([[] s3] & H3 & [= <- <-]).
  apply (scan_val env v o) in H1 as [HA1 Hst1]; [| |done|done|done].
  2: { intros i Hi%elem_of_seq. lia. }
  split; [|done]. apply (replace_in_outputs_val env v o) in H2; [|done|done].
  case_decide; [|by injection H3 as <-]. apply take_out_frame in H3. by eapply agrees_same.
Qed.

Lemma subst_loop_val env v o fuel st s s' :
  subst_loop fuel st s = Some (tt, s') -> agrees env v o s -> Forall (pair_ok v) st ->
  agrees env v o s'.
Proof.
  revert st s. induction fuel as [|fuel IH]; intros [|[old new] st] s; cbn [subst_loop];
    try (by intros [= <-]); try done.
  intros H HA Hst. apply Forall_cons in Hst as [Hp Hst].
  apply bind_Some in H as ([st1 s1] & H1 & H).
  apply (subst_round_val env v o) in H1 as [HA1 Hst1]; eauto.
Qed.

(* ---- structure ---- *)
(* all of [network] except acyclicity *)
Record shape (s : aig) : Prop := {
  sh_const : ks s !! 0 = Some (Sig 0 false, Sig 0 false);
  sh_in : forall k n, ins s !! k = Some n ->
    n <> 0 /\ ks s !! n = Some (sig_of_data k, sig_of_data k);
  sh_ci : forall n a, ks s !! n = Some (a, a) -> n = 0 \/ n ∈ ins s;
  sh_gate : forall n m, fanin s n m -> m < size s;
  sh_out : Forall (valid s) (outs s);
  sh_npi : npi s <= length (ins s);
  sh_npo : npo s <= length (outs s);
  sh_fo : length (fo s) = size s
}.

Lemma network_shape s : network s -> shape s.
Proof. by intros []. Qed.
Lemma shape_network s :
  shape s -> (exists rank : nat -> nat, forall n m, fanin s n m -> rank m < rank n) -> network s.
Proof. by intros []. Qed.

Lemma fanin_same s s' n m : ks s' = ks s -> fanin s' n m -> fanin s n m.
Proof. unfold fanin. by intros ->. Qed.

Lemma shape_same s s' : same_net s s' -> shape s -> shape s'.
Proof.
  intros [Hk Hi Ho Hp Hq Hl Hf _] [H1 H2 H3 H4 H5 H6 H7 H8].
  assert (Hsz : size s' = size s) by (unfold size; by rewrite Hk).
  split; rewrite ?Hk, ?Hi, ?Ho, ?Hp, ?Hq, ?Hsz, ?Hf; try done.
  - intros n m Hnm. eapply H4, fanin_same; [exact Hk|exact Hnm].
  - eapply Forall_impl; [done|]. unfold valid. intros f. by rewrite Hsz.
Qed.

Lemma same_size s s' : same_net s s' -> size s' = size s.
Proof. intros [Hk _ _ _ _ _ _ _]. unfold size. by rewrite Hk. Qed.

Lemma shape_set_key s n a b :
  shape s -> is_gate s n -> valid s a -> valid s b -> a <> b -> shape (set_key n (a, b) s).
Proof.
  intros [H1 H2 H3 H4 H5 H6 H7 H8] (x & y & Hk & Hn & Hxy) Ha Hb Hab.
  pose proof (lookup_lt_Some _ _ _ Hk) as Hlt.
  assert (Hsz : size (set_key n (a, b) s) = size s) by (unfold size; cbn; by rewrite insert_length).
  split; cbn; try done.
  - by rewrite list_lookup_insert_ne.
  - intros k m Hm. destruct (H2 k m Hm) as [? Hm']. split; [done|].
    rewrite list_lookup_insert_ne; [done|]. intros ->. congruence.
  - intros m c [(-> & [= -> ->] & _)|(_ & Hm)]%list_lookup_insert_Some; [done|by apply H3 in Hm].
  - intros i j (c & d & Hi & Hi0 & Hcd & Hj). cbn in Hi.
    enough (j < size s) by (unfold size in *; cbn in *; by rewrite insert_length).
    clear Hsz.
    apply list_lookup_insert_Some in Hi as [(-> & [= -> ->] & _)|(_ & Hi)].
    + destruct Hj as [-> | ->]; done.
    + apply (H4 i j). exists c, d. done.
  - eapply Forall_impl; [exact H5|]. intros f Hf. unfold valid, size in *. cbn in *. by rewrite insert_length.
  - unfold size in *; cbn in *. by rewrite insert_length.
Qed.

Lemma valid_same s s' f : size s' = size s -> valid s f -> valid s' f.
Proof. unfold valid. by intros ->. Qed.

Lemma valid_order s a b : valid s a -> valid s b -> valid s (order a b).1 /\ valid s (order a b).2.
Proof. unfold order. case_decide; done. Qed.

Lemma shape_const_valid s b : shape s -> valid s (get_constant b).
Proof. intros Hs. unfold valid. cbn. pose proof (lookup_lt_Some _ _ _ (sh_const s Hs)). done. Qed.

Definition frozen (s s' : aig) : Prop :=
  ins s' = ins s /\ npi s' = npi s /\ npo s' = npo s /\ lat s' = lat s /\ size s' = size s /\
  length (outs s') = length (outs s).

Lemma frozen_refl s : frozen s s.
Proof. done. Qed.
Lemma frozen_trans s1 s2 s3 : frozen s1 s2 -> frozen s2 s3 -> frozen s1 s3.
Proof. unfold frozen. intuition congruence. Qed.
Lemma frozen_same s s' : same_net s s' -> frozen s s'.
Proof. intros H. pose proof (same_size _ _ H). destruct H. unfold frozen. intuition congruence. Qed.
Lemma frozen_valid s s' f : frozen s s' -> valid s f -> valid s' f.
Proof. intros (_ & _ & _ & _ & H & _). by apply valid_same. Qed.

Lemma replace_in_node_shape n old new s r s' :
  replace_in_node n old new s = Some (r, s') -> is_gate s n -> valid s new -> shape s ->
  shape s' /\ frozen s s' /\ match r with Some p => valid s p.2 | None => True end.
Proof.
  unfold replace_in_node. intros H Hg Hnew HS.
  pose proof Hg as (a & b & Hk & Hn & Hab). rewrite Hk in H. cbn [mbind option_bind fst snd] in H.
  case_decide as Hc; [by injection H as <- <-|].
  set (first := bool_decide (sidx a = old)) in *.
  set (f := sxor new (scompl (if first then a else b))) in *.
  set (c := if first then b else a) in *.
  assert (Hvc : valid s c).
  { apply (sh_gate s HS n). exists a, b. unfold c. destruct first; auto. }
  destruct (valid_order s c f Hvc Hnew) as [Hv0 Hv1].
  destruct (order c f) as [c0 c1] eqn:Eo. cbn [fst snd] in Hv0, Hv1.
  case_decide as He.
  { injection H as <- <-. split; [done|]. split; [done|]. cbn. case_decide; [done|by apply shape_const_valid]. }
  case_decide as Hz.
  { injection H as <- <-. split; [done|]. split; [done|]. cbn. destruct (scompl c0); [done|by apply shape_const_valid]. }
  apply bind_Some in H as (found & Hf & H). case_decide as Hfd.
  { injection H as <- <-. split; [done|]. split; [done|]. cbn. unfold valid; cbn.
    eapply lookup_lt_Some, hash_find_key; [done|tauto]. }
  apply bind_Some in H as (s1 & H1%hash_erase_frame & H).
  apply bind_Some in H as (s2 & H2%hash_insert_frame & H).
  apply bind_Some in H as (s3 & H3%incr_fanout_frame & [= <- <-]).
  destruct H1 as [H1 _], H2 as [H2 _]. pose proof (same_size _ _ H1) as Hs1.
  assert (Hsk : shape (set_key n (c0, c1) s1)).
  { apply shape_set_key.
    - by eapply shape_same.
    - destruct H1 as [E _ _ _ _ _ _ _]. exists a, b. by rewrite E.
    - by eapply valid_same.
    - by eapply valid_same.
    - intros ->. done. }
  split; [|split; [|done]].
  - eapply shape_same; [exact H3|]. eapply shape_same; [exact H2|]. done.
  - eapply frozen_trans; [apply frozen_same, H1|].
    eapply frozen_trans; [|eapply frozen_trans; [apply frozen_same, H2|apply frozen_same, H3]].
    unfold frozen. cbn. repeat split; try done. unfold size. cbn. by rewrite insert_length.
Qed.

Definition pairs_valid (s : aig) (st : list (nat * signal)) : Prop := Forall (fun p => valid s p.2) st.

Lemma scan_shape old new l st s st' s' :
  (forall i, i ∈ l -> i <> 0) -> valid s new -> shape s -> pairs_valid s st ->
  foldM (scan_step old new) st l s = Some (st', s') ->
  shape s' /\ frozen s s' /\ pairs_valid s st'.
Proof.
  intros Hl Hnew HS Hst H.
  apply (foldM_ind _ (fun st1 s1 => shape s1 /\ frozen s s1 /\ pairs_valid s st1) _ _ _ _ _) in H; [done| |done].
  clear st st' s' Hst H. intros i st s1 st' s' Hi (HS1 & HF & Hst) H. unfold scan_step in H.
  apply bind_Some in H as (ci & Hci & (dead & _ & H)%bind_Some).
  case_decide as Hd; [by injection H as <- <-|].
  apply bind_Some in H as ([r s2] & Hr & [= <- <-]).
  assert (ci = false) as -> by (destruct ci; [tauto|done]).
  apply replace_in_node_shape in Hr as (HS2 & HF2 & Hp); eauto using is_gate_scan, frozen_valid.
  split; [done|]. split; [by eapply frozen_trans|]. destruct r; [|done]. constructor; [|done].
  destruct HF as (_ & _ & _ & _ & Hsz & _). unfold valid in *. by rewrite <- Hsz.
Qed.

Lemma replace_in_outputs_shape old new s s' :
  replace_in_outputs old new s = Some (tt, s') -> valid s new -> shape s ->
  shape s' /\ frozen s s'.
Proof.
  intros [[_ ->]|(_ & s1 & Hs & ->)]%replace_in_outputs_inv Hnew HS; [done|].
  pose proof (shape_same _ _ Hs HS) as HS1. split.
  - destruct HS1 as [H1 H2 H3 H4 H5 H6 H7 H8]. split; cbn; try done.
    + apply Forall_fmap. eapply Forall_impl; [exact H5|]. intros f Hf. cbn. unfold redirect.
      case_decide; [|done]. exact (valid_same s s1 _ (same_size _ _ Hs) Hnew).
    + by rewrite map_length.
  - eapply frozen_trans; [apply frozen_same, Hs|]. unfold frozen. cbn. by rewrite map_length.
Qed.

Lemma subst_round_shape old new st s st' s' :
  subst_round old new st s = Some (st', s') -> valid s new -> shape s -> pairs_valid s st ->
  shape s' /\ frozen s s' /\ pairs_valid s st'.
Proof.
  unfold subst_round. intros H Hnew HS Hst.
  apply bind_Some in H as ([st1 s1] & H1 & H). apply bind_Some in H as ([[] s2] & H2 & H).
  apply bind_Some in H as ([[] s3] & H3 & [= <- <-]).
  apply scan_shape in H1 as (HS1 & HF1 & Hst1); [| |done|done|done].
  2: { intros i Hi%elem_of_seq. lia. }
  apply replace_in_outputs_shape in H2 as (HS2 & HF2); [|by eapply frozen_valid|done].
  assert (same_net s2 s3) as Hs3.
  { case_decide; [|by injection H3 as <-]. by apply take_out_frame in H3. }
  split; [by eapply shape_same|]. split; [|done].
  eapply frozen_trans; [exact HF1|]. eapply frozen_trans; [exact HF2|]. by apply frozen_same.
Qed.

Lemma subst_loop_shape fuel st s s' :
  subst_loop fuel st s = Some (tt, s') -> shape s -> pairs_valid s st -> shape s' /\ frozen s s'.
Proof.
  revert st s. induction fuel as [|fuel IH]; intros [|[old new] st] s; cbn [subst_loop];
    try (by intros [= <-]); try done.
  intros H HS Hst. apply Forall_cons in Hst as [Hp Hst].
  apply bind_Some in H as ([st1 s1] & H1 & H).
  apply subst_round_shape in H1 as (HS1 & HF1 & Hst1); [|done|done|done].
  apply IH in H as [HS' HF']; [|done|].
  - split; [done|]. by eapply frozen_trans.
  - eapply Forall_impl; [exact Hst1|]. intros p. by apply frozen_valid.
Qed.

(* ---- acyclicity of a substitution without cascades ---- *)
Definition fanins (s : aig) (n : nat) : list nat :=
  match ks s !! n with
  | Some (a, b) => if decide (n <> 0 /\ a <> b) then [sidx a; sidx b] else []
  | None => []
  end.
Lemma fanins_spec s n m : fanin s n m <-> m ∈ fanins s n.
Proof.
  unfold fanins. destruct (ks s !! n) as [[a b]|] eqn:Hk.
  - case_decide as Hno.
    + rewrite !elem_of_cons, elem_of_nil. split.
      * intros (x & y & E & _ & _ & Hm). simplify_eq. tauto.
      * intros Hm. exists a, b. tauto.
    + rewrite elem_of_nil. split; [|done]. intros (x & y & E & ? & ? & _). simplify_eq. tauto.
  - rewrite elem_of_nil. split; [|done]. intros (x & y & E & _). congruence.
Qed.

Lemma depends_dec s (rank : nat -> nat) old :
  (forall n m, fanin s n m -> rank m < rank n) -> forall n, Decision (rtc (fanin s) n old).
Proof.
  intros Hr. assert (H : forall k n, rank n < k -> Decision (rtc (fanin s) n old)).
  { induction k as [|k IH]; intros n Hn; [lia|].
    destruct (decide (n = old)) as [->|Hno]; [left; constructor|].
    assert (HD : forall l : list nat, (forall m, m ∈ l -> fanin s n m) ->
      {exists m, m ∈ l /\ rtc (fanin s) m old} + {~ exists m, m ∈ l /\ rtc (fanin s) m old}).
    { induction l as [|x l IHl]; intros Hl; [right; intros (m & Hm%elem_of_nil & _); done|].
      destruct IHl as [Hy|Hn'].
      - intros m Hm. apply Hl. by constructor.
      - left. destruct Hy as (m & Hm & Hmo). exists m. split; [by constructor|done].
      - assert (Hx : rank x < k) by (assert (rank x < rank n) by (apply Hr, Hl; constructor); lia).
        destruct (IH x Hx) as [Hy|Hn2].
        + left. exists x. split; [constructor|done].
        + right. intros (m & [->|Hm]%elem_of_cons & Hmo); [done|]. apply Hn'. eauto. }
    destruct (HD (fanins s n)) as [Hy|Hn'].
    - intros m. apply fanins_spec.
    - left. destruct Hy as (m & Hm & Hmo). econstructor; [by apply fanins_spec|done].
    - right. intros Hp. inversion Hp; subst; [done|]. apply Hn'. eexists. split; [by apply fanins_spec|done]. }
  intros n. apply (H (S (rank n))). lia.
Qed.

Lemma redirect_acyclic s s' old new :
  acyclic s -> ~ rtc (fanin s) new old ->
  (forall n m, fanin s' n m -> fanin s n m \/ (m = new /\ fanin s n old)) -> acyclic s'.
Proof.
  intros [rank Hr] Hno Hf. pose proof (depends_dec s rank old Hr) as D.
  exists (fun n => rank n + if D n then S (rank new) else 0). intros n m Hnm.
  destruct (Hf n m Hnm) as [H|[-> H]].
  - specialize (Hr n m H). destruct (D m) as [Hm|Hm], (D n) as [Hn|Hn]; try lia.
    exfalso. apply Hn. by econstructor.
  - specialize (Hr n old H). destruct (D new) as [|_]; [done|].
    destruct (D n) as [Hn|Hn]; [lia|]. exfalso. apply Hn. econstructor; [done|constructor].
Qed.

Lemma replace_in_node_fanin n old new s s' i m :
  replace_in_node n old new s = Some (None, s') -> is_gate s n ->
  fanin s' i m -> fanin s i m \/ (i = n /\ m = sidx new /\ fanin s n old).
Proof.
  unfold replace_in_node. intros H Hg Him.
  pose proof Hg as (a & b & Hk & Hn & Hab). rewrite Hk in H. cbn [mbind option_bind fst snd] in H.
  case_decide as Hc; [injection H as <-; by left|].
  set (first := bool_decide (sidx a = old)) in *.
  set (f := sxor new (scompl (if first then a else b))) in *.
  set (c := if first then b else a) in *.
  destruct (order c f) as [c0 c1] eqn:Eo.
  case_decide as Q1; [done|]. case_decide as Q2; [done|].
  apply bind_Some in H as (found & Hf & H). case_decide as Q3; [done|].
  apply bind_Some in H as (s1 & H1%hash_erase_frame & H).
  apply bind_Some in H as (s2 & H2%hash_insert_frame & H).
  apply bind_Some in H as (s3 & H3%incr_fanout_frame & [= <-]).
  destruct H1 as [[E1 _ _ _ _ _ _ _] _], H2 as [[E2 _ _ _ _ _ _ _] _], H3 as [E3 _ _ _ _ _ _ _].
  destruct Him as (x & y & Hi & Hi0 & Hxy & Hm). rewrite E3, E2 in Hi. cbn in Hi. rewrite E1 in Hi.
  apply list_lookup_insert_Some in Hi as [(<- & [= <- <-] & _)|(Hne & Hi)].
  - assert (Hm' : m = sidx c \/ m = sidx new).
    { unfold order in Eo. case_decide; injection Eo as <- <-; destruct Hm as [-> | ->]; auto. }
    destruct Hm' as [-> | ->].
    + left. exists a, b. split; [done|]. split; [done|]. split; [done|]. unfold c. destruct first; auto.
    + right. split; [done|]. split; [done|]. exists a, b. split; [done|]. split; [done|]. split; [done|].
      apply not_and_l in Hc as [Hc|Hc]; apply dec_stable in Hc; auto.
  - left. exists x, y. done.
Qed.

Lemma foldM_app_inv {S A B} (f : B -> A -> M S B) l1 l2 b s b' s' :
  foldM f b (l1 ++ l2) s = Some (b', s') ->
  exists b1 s1, foldM f b l1 s = Some (b1, s1) /\ foldM f b1 l2 s1 = Some (b', s').
Proof.
  revert b s. induction l1 as [|x l1 IH]; cbn; intros b s; [eauto|].
  unfold bnd. destruct (f b x s) as [[b1 s1]|]; [apply IH|done].
Qed.

Lemma scan_mono old new l st s st' s' :
  foldM (scan_step old new) st l s = Some (st', s') -> length st <= length st'.
Proof.
  intros H. apply (foldM_ind _ (fun st1 _ => length st <= length st1) _ _ _ _ _) in H; [done| |done].
  intros i st1 s1 st2 s2 _ Hl H1. unfold scan_step in H1.
  apply bind_Some in H1 as (ci & _ & (dead & _ & H1)%bind_Some).
  case_decide; [by injection H1 as <- <-|].
  apply bind_Some in H1 as ([r s3] & _ & [= <- <-]). destruct r; cbn; lia.
Qed.

(* a scan that pushes nothing *)
Lemma scan_fanin old new l s s' :
  NoDup l -> (forall i, i ∈ l -> i <> 0) ->
  foldM (scan_step old new) [] l s = Some ([], s') ->
  (forall i m, fanin s' i m -> fanin s i m \/ (m = sidx new /\ fanin s i old)) /\
  (forall i, i ∉ l -> ks s' !! i = ks s !! i).
Proof.
  revert s'. induction l as [|i l IH] using rev_ind; intros s' Hnd Hl H.
  { injection H as <-. split; [by left|done]. }
  apply NoDup_app in Hnd as (Hnd & Hni & _).
  apply foldM_app_inv in H as (st1 & s1 & H1 & H2).
  assert (st1 = []) as ->.
  { apply scan_mono in H2. destruct st1; [done|cbn in H2; lia]. }
  destruct (IH s1 Hnd) as [Hf1 Hk1]; [intros j Hj; apply Hl, elem_of_app; by left|done|].
  cbn [foldM] in H2. unfold bnd in H2.
  destruct (scan_step old new [] i s1) as [[st2 s2]|] eqn:Hstep; [|done].
  injection H2 as -> ->. unfold scan_step in Hstep.
  apply bind_Some in Hstep as (ci & Hci & (dead & _ & Hstep)%bind_Some).
  assert (Hi0 : i <> 0) by (apply Hl, elem_of_app; right; constructor).
  assert (Hil : i ∉ l) by (intros Hi; apply (Hni i Hi); constructor).
  assert (Hkeep : forall j, j ∉ l ++ [i] -> j ∉ l /\ j <> i).
  { intros j Hj. rewrite elem_of_app, elem_of_list_singleton in Hj. tauto. }
  case_decide as Hd.
  { injection Hstep as <-. split; [done|]. intros j [Hj _]%Hkeep. auto. }
  apply bind_Some in Hstep as ([r s2] & Hr & [= Hr' <-]). destruct r; [done|].
  assert (ci = false) as -> by (destruct ci; [tauto|done]).
  split.
  - intros j m Hjm. eapply replace_in_node_fanin in Hr; [|by apply is_gate_scan|exact Hjm].
    destruct Hr as [Hr|(-> & -> & Hr)]; [by apply Hf1|]. right. split; [done|].
    unfold fanin in *. by rewrite <- Hk1.
  - intros j [Hj Hji]%Hkeep. rewrite <- Hk1 by done. unfold replace_in_node in Hr.
    apply bind_Some in Hr as (k & _ & Hr). case_decide; [by injection Hr as <-|].
    destruct (order _ _) as [c0 c1]. case_decide as Q1; [done|]. case_decide as Q2; [done|].
    apply bind_Some in Hr as (found & _ & Hr). case_decide as Q3; [done|].
    apply bind_Some in Hr as (s3 & H1'%hash_erase_frame & Hr).
    apply bind_Some in Hr as (s4 & H2'%hash_insert_frame & Hr).
    apply bind_Some in Hr as (s5 & H3'%incr_fanout_frame & [= <-]).
    destruct H1' as [[E1 _ _ _ _ _ _ _] _], H2' as [[E2 _ _ _ _ _ _ _] _], H3' as [E3 _ _ _ _ _ _ _].
    rewrite E3, E2. cbn. rewrite E1. by rewrite list_lookup_insert_ne.
Qed.

Lemma subst_once_acyclic old new s s' :
  substitute_node 1 old new s = Some (tt, s') -> acyclic s -> ~ rtc (fanin s) (sidx new) old -> acyclic s'.
Proof.
  unfold substitute_node. cbn [subst_loop]. intros H Hac Hno.
  apply bind_Some in H as ([st1 s1] & H1 & H). destruct st1 as [|[o w] st1]; [|done].
  injection H as <-. unfold subst_round in H1.
  apply bind_Some in H1 as ([st2 s2] & H1 & H). apply bind_Some in H as ([[] s3] & H2 & H).
  apply bind_Some in H as ([[] s4] & H3 & [= -> <-]).
  apply scan_fanin in H1 as [Hf _]; [|apply NoDup_seq|intros i Hi%elem_of_seq; lia].
  eapply redirect_acyclic; [exact Hac|exact Hno|]. intros n m Hnm. apply Hf.
  assert (E3 : ks s3 = ks s2).
  { apply replace_in_outputs_inv in H2 as [[_ ->]|(_ & s5 & [E _ _ _ _ _ _ _] & ->)]; done. }
  assert (E4 : ks s4 = ks s3).
  { case_decide; [|by injection H3 as <-]. apply take_out_frame in H3 as [E _ _ _ _ _ _ _]. done. }
  unfold fanin in *. by rewrite <- E3, <- E4.
Qed.
