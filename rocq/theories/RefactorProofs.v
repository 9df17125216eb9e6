From Verif Require Import Base Aig AigSem NetProofs SubstProofs Topo Clean Tt TtProofs RefDeref Refactor PropNet.

Lemma gate_fan s n a b : ks s !! n = Some (a, b) -> n <> 0 -> a <> b -> aig_fan s n = Some [sidx a; sidx b].
Proof.
  intros E Hn Hab. unfold aig_fan, Clean.fanins, is_ci. rewrite decide_False by done. rewrite E. cbn. by rewrite bool_decide_eq_false_2.
Qed.
Lemma setv_eq {A} (v : nat -> A) n x : setv v n x n = x.
Proof. unfold setv. by rewrite decide_True. Qed.
Lemma setv_ne {A} (v : nat -> A) n x k : k <> n -> setv v n x k = v k.
Proof. intros. unfold setv. by rewrite decide_False. Qed.

Lemma erase_elem x l y : NoDup l -> y ∈ erase_first x l <-> y ∈ l /\ y <> x.
Proof.
  induction 1 as [|z l Hz Hl IH]; cbn.
  - split; [intros H; by apply elem_of_nil in H|]. intros [H _]. by apply elem_of_nil in H.
  - case_decide as Q; [subst z|].
    + rewrite elem_of_cons. split; [intros H; split; [by right|]; by intros ->|]. intros [[->|H] Hne]; done.
    + rewrite !elem_of_cons, IH. split; [intros [->|[? ?]]; tauto|]. tauto.
Qed.
Lemma erase_nodup x l : NoDup l -> NoDup (erase_first x l).
Proof.
  intros H. induction H as [|z l Hz Hl IH]; cbn; [constructor|]. case_decide; [done|]. constructor; [|done].
  rewrite erase_elem by done. tauto.
Qed.
Lemma erase_length x l : x ∈ l -> length (erase_first x l) = length l - 1.
Proof.
  induction l as [|z l IH]; [by intros ?%elem_of_nil|]. cbn. case_decide as Q; [lia|]. intros [->|H]%elem_of_cons; [done|].
  cbn. rewrite IH by done. destruct l; [by apply elem_of_nil in H|]. cbn. lia.
Qed.

Section cut.
Context (s : aig) (W : network s) (depth : depths) (limit root : nat).
Context (Hdepth : forall n, rtc (fanin s) root n -> is_Some (depth n)).

Record cinv (st : cutst) : Prop := {
  ci_root : st.1 root = true;
  ci_vis : forall n, n ∈ st.2 -> st.1 n = true;
  ci_nodup : NoDup st.2;
  ci_noroot : root ∉ st.2;
  ci_int : forall n, st.1 n = true -> n ∉ st.2 -> is_gate s n /\ forall m, fanin s n m -> st.1 m = true;
  ci_tfi : forall n, st.1 n = true -> rtc (fanin s) root n;
  ci_len : length st.2 <= limit
}.
Lemma tfi_lt n : root < size s -> rtc (fanin s) root n -> n < size s.
Proof. intros Hr H. apply rtc_inv_r in H as [<-|(m & _ & Hm)]; [done|]. by apply (net_gate _ W m). Qed.

(* the best leaf, if any, is a gate among the leaves, and its cost is the number of
   its fanins that are not visited *)
Definition unvisited (vis : nat -> bool) (k : key) : nat := (if vis (sidx k.1) then 0 else 1) + (if vis (sidx k.2) then 0 else 1).
Definition good (st : cutst) (best : option nat * nat * option nat) : Prop :=
  best = (None, 0, None) \/ (best.1.2 ∈ st.2 /\ best.1.2 <> 0 /\ exists k, ks s !! best.1.2 = Some k /\ k.1 <> k.2 /\ best.1.1 = Some (unvisited st.1 k)).

Hypothesis Hroot : root < size s.
Lemma best_leaf_ok st ls best : cinv st -> (forall n, n ∈ ls -> n ∈ st.2) -> good st best ->
  exists r, best_leaf s st.1 depth ls best = Some r /\ good st r.
Proof.
  intros I. revert best. induction ls as [|leaf ls IH]; intros best Hls Hg; [by exists best|]. cbn [best_leaf].
  assert (Hin : leaf ∈ st.2) by (apply Hls; left).
  assert (Ht : rtc (fanin s) root leaf) by (by apply (ci_tfi _ I), (ci_vis _ I)).
  pose proof (tfi_lt leaf Hroot Ht) as Hlt. destruct (lookup_lt_is_Some_2 (ks s) leaf Hlt) as [k Ek].
  assert (Hc : exists c, leaf_cost s st.1 leaf = Some c /\ forall c', c = Some c' -> leaf <> 0 /\ k.1 <> k.2 /\ c' = unvisited st.1 k).
  { unfold leaf_cost. rewrite (ci_vis _ I leaf Hin), Ek. cbn [mbind option_bind]. case_decide as Q; [by eexists|].
    assert (H0 : leaf <> 0). { intros ->. rewrite (net_const _ W) in Ek. by injection Ek as <-. }
    case_decide as Q2.
    - eexists. split; [done|]. by intros c' [= <-].
    - unfold fanout_size. destruct (lookup_lt_is_Some_2 (fo s) leaf) as [h Eh]; [by rewrite (net_fo _ W)|]. rewrite Eh. cbn [mbind option_bind].
      eexists. split; [done|]. case_decide; [done|]. by intros c' [= <-]. }
  destruct Hc as (c & -> & Hc). cbn [mbind option_bind]. destruct (Hdepth leaf Ht) as [l ->]. cbn [mbind option_bind].
  set (best' := if cost_lt c best.1.1 || _ then (c, leaf, Some l) else best).
  assert (Hg' : good st best').
  { unfold best'. destruct (cost_lt c best.1.1 || _) eqn:E; [|done]. destruct c as [c'|].
    - destruct (Hc c' eq_refl) as (H0 & Hk & ->). right. cbn. split; [done|]. split; [done|]. by exists k.
    - exfalso. cbn in E. apply andb_true_iff in E as [E1 E2]. apply bool_decide_eq_true in E1.
      destruct Hg as [->|(_ & _ & k' & _ & _ & Hk')]; [done|congruence]. }
  case_decide; [by exists best'|]. apply IH; [|done]. intros n Hn. apply Hls. by right.
Qed.

(* while the fanins of the new root bf are added *)
Record winv (bf : nat) (ints : list nat) (st : cutst) : Prop := {
  wi_root : st.1 root = true;
  wi_vis : forall n, n ∈ st.2 -> st.1 n = true;
  wi_nodup : NoDup st.2;
  wi_noroot : root ∉ st.2;
  wi_int : forall n, st.1 n = true -> n ∉ st.2 -> n <> bf -> is_gate s n /\ forall m, fanin s n m -> st.1 m = true;
  wi_tfi : forall n, st.1 n = true -> rtc (fanin s) root n;
  wi_bf : st.1 bf = true;
  wi_ints : forall n, n ∈ ints <-> st.1 n = true /\ n ∉ st.2
}.
Lemma add_leaf_ok bf ints st c : winv bf ints st -> fanin s bf c ->
  winv bf ints (add_leaf st c) /\ (add_leaf st c).1 c = true /\ (forall n, st.1 n = true -> (add_leaf st c).1 n = true) /\
  length (add_leaf st c).2 = length st.2 + (if st.1 c then 0 else 1).
Proof.
  intros I Hc. unfold add_leaf. destruct (st.1 c) eqn:E; [split; [done|]; split; [done|]; split; [done|lia]|].
  destruct I as [I1 I2 I3 I4 I5 I6 I7 I8]. cbn [fst snd].
  assert (Hni : c ∉ st.2) by (intros H%I2; congruence).
  assert (Hle : forall n, st.1 n = true -> setv st.1 c true n = true).
  { intros n Hn. destruct (decide (n = c)) as [->|]; [apply setv_eq|]. by rewrite setv_ne. }
  assert (Hinv : forall n, setv st.1 c true n = true -> n <> c -> st.1 n = true) by (intros n Hn Hne; by rewrite setv_ne in Hn).
  split; [|split; [apply setv_eq|]; split; [done|rewrite app_length; cbn; lia]].
  split; cbn [fst snd]; auto.
  - intros n [Hn|Hn%elem_of_list_singleton]%elem_of_app; [auto|]. subst n. apply setv_eq.
  - apply NoDup_app. split; [done|]. split; [|apply NoDup_singleton]. intros x Hx Hx2%elem_of_list_singleton. by subst x.
  - intros [H|H%elem_of_list_singleton]%elem_of_app; [done|]. subst c. congruence.
  - intros n Hn Hn2 Hne. rewrite not_elem_of_app, not_elem_of_cons in Hn2. destruct Hn2 as (Hn2 & Hnc & _).
    destruct (I5 n (Hinv n Hn Hnc) Hn2 Hne) as [G F]. split; [done|]. auto.
  - intros n Hn. destruct (decide (n = c)) as [->|Hne]; [|auto]. eapply rtc_r; [apply (I6 bf I7)|done].
  - intros n. rewrite I8. rewrite not_elem_of_app, not_elem_of_cons. split.
    + intros [Hn Hn2]. split; [auto|]. split; [done|]. split; [|apply not_elem_of_nil]. intros ->. congruence.
    + intros (Hn & Hn2 & Hnc & _). auto.
Qed.

Lemma one_level_ok st ints : cinv st -> NoDup ints -> (forall n, n ∈ ints <-> st.1 n = true /\ n ∉ st.2) ->
  exists r, one_level_build_cut s depth limit st = Some r /\
    match r with
    | None => True
    | Some st' => cinv st' /\ exists bf, NoDup (bf :: ints) /\ forall n, n ∈ bf :: ints <-> st'.1 n = true /\ n ∉ st'.2
    end.
Proof.
  intros I Hnd Hints. unfold one_level_build_cut.
  destruct (best_leaf_ok st st.2 (None, 0, None) I) as ([[bc bf] bl] & -> & Hg); [done|by left|]. cbn [mbind option_bind].
  case_decide as Q0; [by eexists|].
  destruct Hg as [Hg|(Hin & _ & [a b] & Ek & Hab & Hbc)]; [by injection Hg|]. cbn [fst snd] in *. subst bc. cbn [mbind option_bind].
  rewrite decide_True. 2: { unfold unvisited. destruct (st.1 _), (st.1 _); lia. }
  case_decide as Q1; [by eexists|]. rewrite (gate_fan s bf a b Ek Q0 Hab). cbn [mbind option_bind foldl].
  assert (Hnb : bf ∉ ints) by (intros [_ H]%Hints; done).
  assert (Hpos : 0 < length st.2) by (destruct st.2; [by apply elem_of_nil in Hin|cbn; lia]).
  assert (I0 : winv bf (bf :: ints) (st.1, erase_first bf st.2)).
  { destruct I as [I1 I2 I3 I4 I5 I6 I7]. split; cbn [fst snd]; auto.
    - intros n Hn. apply I2. by apply erase_elem in Hn as [? _].
    - by apply erase_nodup.
    - rewrite erase_elem by done. tauto.
    - intros n Hn Hn2 Hne. apply I5; [done|]. intros H. apply Hn2. by apply erase_elem.
    - intros n. rewrite elem_of_cons, Hints, erase_elem by done. split.
      + intros [->|[Hn Hn2]]; [split; [by apply I2|tauto]|]. split; [done|tauto].
      + intros [Hn Hn2]. destruct (decide (n = bf)) as [->|Hne]; [by left|]. right. split; [done|]. intros H. apply Hn2. done. }
  assert (Fa : fanin s bf (sidx a)) by (exists a, b; auto).
  assert (Fb : fanin s bf (sidx b)) by (exists a, b; auto).
  destruct (add_leaf_ok bf (bf :: ints) _ (sidx a) I0 Fa) as (I1 & Va & M1 & L1).
  destruct (add_leaf_ok bf (bf :: ints) _ (sidx b) I1 Fb) as (I2 & Vb & M2 & L2).
  set (st1 := add_leaf (st.1, erase_first bf st.2) (sidx a)) in *. set (st2 := add_leaf st1 (sidx b)) in *.
  cbn [fst snd] in L1. rewrite erase_length in L1 by done.
  assert (Hlen : length st2.2 <= limit).
  { rewrite L2, L1. unfold unvisited in Q1. cbn [fst snd] in Q1.
    assert ((if st1.1 (sidx b) then 0 else 1) <= (if st.1 (sidx b) then 0 else 1)).
    { destruct (st.1 (sidx b)) eqn:E; [|destruct (st1.1 (sidx b)); lia]. by rewrite (M1 (sidx b) E). }
    lia. }
  rewrite decide_True by done. eexists. split; [done|]. cbn beta iota. split.
  - destruct I2 as [J1 J2 J3 J4 J5 J6 J7 J8]. split; auto.
    intros n Hn Hn2. destruct (decide (n = bf)) as [->|Hne]; [|by apply J5]. split; [by exists a, b|].
    intros m (a' & b' & Ek' & _ & _ & Hm). rewrite Ek in Ek'. injection Ek' as <- <-. destruct Hm as [->| ->]; [by apply M2|done].
  - exists bf. split; [by constructor|]. apply I2.
Qed.

Lemma build_ok fuel st ints : cinv st -> NoDup ints -> (forall n, n ∈ ints <-> st.1 n = true /\ n ∉ st.2) ->
  size s < fuel + length ints -> exists st', build_cut s depth limit fuel st = Some st' /\ cinv st'.
Proof.
  revert st ints. induction fuel as [|fuel IH]; intros st ints I Hnd Hints Hf.
  - exfalso. assert (length ints <= length (seq 0 (size s))); [|rewrite seq_length in *; lia].
    apply submseteq_length, NoDup_submseteq; [done|]. intros n [Hn _]%Hints. apply elem_of_seq.
    pose proof (tfi_lt n Hroot (ci_tfi _ I n Hn)). lia.
  - cbn [build_cut]. destruct (one_level_ok st ints I Hnd Hints) as (r & -> & Hr). cbn [mbind option_bind].
    destruct r as [st'|]; [|by exists st]. destruct Hr as (I' & bf & Hnd' & Hints'). apply (IH st' (bf :: ints)); auto. cbn. lia.
Qed.

Lemma rcut_ok a b : ks s !! root = Some (a, b) -> root <> 0 -> a <> b -> sidx a <> sidx b -> 2 <= limit ->
  exists st, reconvergence_driven_cut s depth limit root = Some st.2 /\ cinv st.
Proof.
  intros Ek H0 Hab Hne Hlim. unfold reconvergence_driven_cut. rewrite (gate_fan s root a b Ek H0 Hab). cbn [mbind option_bind foldl].
  set (vis := setv (setv _ _ _) _ _).
  assert (Fa : fanin s root (sidx a)) by (exists a, b; auto).
  assert (Fb : fanin s root (sidx b)) by (exists a, b; auto).
  destruct (net_acyclic _ W) as [rk Hrk]. pose proof (Hrk _ _ Fa). pose proof (Hrk _ _ Fb).
  assert (Hra : root <> sidx a) by (intros E; rewrite <- E in *; lia).
  assert (Hrb : root <> sidx b) by (intros E; rewrite <- E in *; lia).
  assert (Hv : forall n, vis n = true <-> n = root \/ n = sidx a \/ n = sidx b).
  { intros n. unfold vis, setv. repeat case_decide; subst; naive_solver. }
  assert (I : cinv (vis, [sidx a; sidx b])).
  { split; cbn [fst snd].
    - apply Hv. auto.
    - intros n Hn. apply Hv. rewrite !elem_of_cons, elem_of_nil in Hn. tauto.
    - apply NoDup_cons. split; [|apply NoDup_singleton]. by rewrite elem_of_list_singleton.
    - rewrite !elem_of_cons, elem_of_nil. tauto.
    - intros n Hn Hn2. apply Hv in Hn. rewrite !elem_of_cons, elem_of_nil in Hn2. assert (n = root) as -> by tauto.
      split; [by exists a, b|]. intros m (a' & b' & Ek' & _ & _ & Hm). rewrite Ek in Ek'. injection Ek' as <- <-. apply Hv. tauto.
    - intros n [->|[->| ->]]%Hv; [apply rtc_refl|by apply rtc_once|by apply rtc_once].
    - cbn. lia. }
  destruct (build_ok (S (S (size s))) _ [root] I) as (st & -> & I').
  - apply NoDup_singleton.
  - intros n. cbn [fst snd]. rewrite elem_of_list_singleton, Hv, !not_elem_of_cons. split; [intros ->|].
    + split; [auto|]. split; [done|]. split; [done|apply not_elem_of_nil].
    + tauto.
  - cbn. lia.
  - cbn [mbind option_bind]. rewrite decide_True by apply (ci_len _ I'). by exists st.
Qed.

Lemma visited_covered st n : cinv st -> st.1 n = true -> covered s st.2 n.
Proof.
  intros I. destruct (net_acyclic _ W) as [rk Hrk]. remember (rk n) as r eqn:Er. revert n Er.
  induction (lt_wf r) as [r _ IH]. intros n -> Hn. destruct (decide (n ∈ st.2)) as [Hl|Hl]; [by apply cov_leaf|].
  destruct (ci_int _ I n Hn Hl) as [G F]. apply cov_gate; [done|]. intros m Hm. apply (IH (rk m)); [by apply Hrk|done|auto].
Qed.
End cut.

(* ---- the cone ---- *)
Section cone.
Context (s : aig) (W : network s) (leaves : list nat).

(* acc lists gates, each after its fanins *)
Definition ordered (acc : list nat) : Prop :=
  forall i n, acc !! i = Some n -> is_gate s n /\ n ∉ leaves /\ forall m, fanin s n m -> m ∈ leaves \/ m ∈ take i acc.
Definition dinv (st : list nat * list nat) : Prop :=
  (forall n, n ∈ st.1 <-> n ∈ leaves \/ n ∈ st.2) /\ ordered st.2.

Lemma is_pi_gate n : is_gate s n -> is_pi s n = Some false.
Proof. intros (a & b & E & _ & Hab). unfold is_pi. rewrite E. cbn. by rewrite bool_decide_eq_false_2. Qed.
Lemma is_pi_some n : n < size s -> is_Some (is_pi s n).
Proof. intros H. unfold is_pi. destruct (lookup_lt_is_Some_2 (ks s) n H) as [k ->]. by eexists. Qed.

Lemma dfs_ok rk fuel n st : (forall x y, fanin s x y -> rk y < rk x) -> (forall x, x ∈ leaves -> x < size s) ->
  covered s leaves n -> dinv st -> rk n < fuel ->
  exists st', dfs_collect s fuel n st = Some st' /\ dinv st' /\ n ∈ st'.1 /\ (forall m, m ∈ st.1 -> m ∈ st'.1) /\
    (n ∈ st.1 \/ exists l, st'.2 = l ++ [n]).
Proof.
  intros Hrk Hl. revert n st. induction fuel as [|fuel IH]; intros n st Hc I Hf; [lia|]. cbn [dfs_collect].
  destruct (decide (n ∈ st.1)) as [Hin|Hin].
  { destruct (is_pi_some n) as [pi ->].
    - destruct Hc as [n Hn|n (a & b & E & _) _]; [by apply Hl|]. by apply lookup_lt_Some in E.
    - cbn [mbind option_bind]. rewrite bool_decide_eq_true_2 by done. cbn [orb]. exists st. split; [done|]. split; [done|]. split; [done|]. split; [done|]. by left. }
  assert (Hnl : n ∉ leaves) by (intros H; apply Hin, I; auto).
  destruct Hc as [n Hn|n G Hc]; [done|].
  rewrite (is_pi_gate n G). cbn [mbind option_bind]. rewrite bool_decide_eq_false_2 by done. cbn [orb].
  destruct G as (a & b & E & H0 & Hab). rewrite (gate_fan s n a b E H0 Hab). cbn [mbind option_bind ofold].
  assert (Fa : fanin s n (sidx a)) by (exists a, b; auto).
  assert (Fb : fanin s n (sidx b)) by (exists a, b; auto).
  pose proof (Hrk _ _ Fa). pose proof (Hrk _ _ Fb).
  destruct (IH (sidx a) st) as (st1 & -> & I1 & Va & M1 & _); [auto|done|lia|]. cbn [mbind option_bind].
  destruct (IH (sidx b) st1) as (st2 & -> & I2 & Vb & M2 & _); [auto|done|lia|]. cbn [mbind option_bind].
  eexists. split; [done|]. cbn [fst snd]. split; [|split; [by left|]; split; [intros m Hm; right; auto|right; by eexists]].
  destruct I2 as [J1 J2]. split; cbn [fst snd].
  - intros m. rewrite elem_of_cons, elem_of_app, elem_of_list_singleton, J1. tauto.
  - intros i m Hm. apply lookup_app_Some in Hm as [Hm|[Hge Hm]].
    + destruct (J2 i m Hm) as (G & Hn & F). split; [done|]. split; [done|]. intros x Hx. destruct (F x Hx) as [?|Hx2]; [by left|right].
      rewrite take_app_le; [done|]. apply lookup_lt_Some in Hm. lia.
    + assert (i - length st2.2 = 0) as Ei by (apply lookup_lt_Some in Hm; cbn in Hm; lia). rewrite Ei in Hm. injection Hm as <-.
      split; [by exists a, b|]. split; [done|]. intros x (a' & b' & E' & _ & _ & Hx). rewrite E in E'. injection E' as <- <-.
      rewrite take_app_ge by lia. assert (Hx2 : x ∈ st2.1) by (destruct Hx as [->| ->]; auto).
      apply J1 in Hx2 as [?|?]; [by left|]. right. apply elem_of_app. by left.
Qed.

(* ---- the table ---- *)
Definition at_leaves (v : nat -> bool) (i : nat) : bool := default false (v <$> leaves !! i).
Definition table_of (v : nat -> bool) (n : nat) (t : tt) : Prop :=
  tt_wf t /\ nv t = length leaves /\ tt_eval t (at_leaves v) = v n.
Definition gates_hold (v : nat -> bool) : Prop :=
  forall n a b, ks s !! n = Some (a, b) -> n <> 0 -> a <> b -> v n = sval v a && sval v b.

Lemma leaf_table_ok v n : NoDup leaves -> n ∈ leaves -> exists t, leaf_table leaves n = Some t /\ table_of v n t.
Proof.
  intros Hnd Hn. unfold leaf_table. rewrite decide_True by done. eexists. split; [done|]. split; [apply tab_wf|]. split; [done|].
  rewrite eval_tab. destruct (elem_of_list_lookup_1 _ _ Hn) as [k Hk].
  assert (Hv : at_leaves v k = v n) by (unfold at_leaves; by rewrite Hk).
  destruct (v n) eqn:E.
  - apply existsb_exists. exists k. split; [apply in_seq; apply lookup_lt_Some in Hk; lia|].
    rewrite bool_decide_eq_true_2 by done. cbn [andb]. rewrite testbit_idx, decide_True; [done|]. by apply lookup_lt_Some in Hk.
  - apply not_true_is_false. intros H. apply existsb_exists in H as (j & _ & H). apply andb_true_iff in H as [H1 H2].
    apply bool_decide_eq_true in H1. rewrite testbit_idx in H2. case_decide; [|done].
    assert (j = k) as -> by (eapply NoDup_lookup; eauto). congruence.
Qed.
Lemma cone_step_ok v m n : gates_hold v -> is_gate s n ->
  (forall x, fanin s n x -> exists t, m x = Some t /\ table_of v x t) ->
  (forall x t, m x = Some t -> table_of v x t) ->
  exists m', cone_step s m n = Some m' /\ (forall x t, m x = Some t -> m' x = Some t) /\
    (forall x t, m' x = Some t -> table_of v x t) /\ is_Some (m' n).
Proof.
  intros Hv G F Hm. unfold cone_step. rewrite (is_pi_gate n G). cbn [mbind option_bind]. destruct G as (a & b & E & H0 & Hab).
  rewrite E. cbn [mbind option_bind fst snd].
  destruct (F (sidx a)) as (ta & -> & Wa & Na & Ea); [exists a, b; auto|].
  destruct (F (sidx b)) as (tb & -> & Wb & Nb & Eb); [exists a, b; auto|]. cbn [mbind option_bind].
  rewrite decide_True by congruence. unfold insert_new. eexists. split; [done|].
  destruct (m n) as [t0|] eqn:En; [split; [done|]; split; [done|]; by rewrite En|].
  split; [|split].
  - intros x t Hx. rewrite setv_ne; [done|]. intros ->. congruence.
  - intros x t Hx. destruct (decide (x = n)) as [->|Hne]; [|rewrite setv_ne in Hx by done; by apply Hm].
    rewrite setv_eq in Hx. injection Hx as <-.
    assert (Wa' := not_if_wf ta (scompl a) Wa). assert (Wb' := not_if_wf tb (scompl b) Wb).
    assert (nv (tt_not_if ta (scompl a)) = nv (tt_not_if tb (scompl b))) by (rewrite !nv_not_if; congruence).
    split; [by apply and_wf|]. split; [cbn; by rewrite nv_not_if|].
    rewrite eval_and, !eval_not_if, Ea, Eb by done. rewrite (Hv n a b E H0 Hab). unfold sval. by rewrite ?(xorb_comm (v _)).
  - rewrite setv_eq. by eexists.
Qed.
Lemma cone_fold_ok v : NoDup leaves -> gates_hold v -> forall acc, ordered acc ->
  exists m, ofold (cone_step s) (leaf_table leaves) acc = Some m /\
    (forall x t, m x = Some t -> table_of v x t) /\ forall x, x ∈ leaves \/ x ∈ acc -> is_Some (m x).
Proof.
  intros Hnd Hv acc Hacc.
  assert (G : forall post pre m, acc = pre ++ post -> (forall x t, m x = Some t -> table_of v x t) ->
    (forall x, x ∈ leaves \/ x ∈ pre -> is_Some (m x)) ->
    exists m', ofold (cone_step s) m post = Some m' /\ (forall x t, m' x = Some t -> table_of v x t) /\ forall x, x ∈ leaves \/ x ∈ acc -> is_Some (m' x)).
  { induction post as [|n post IH]; intros pre m Ea Ht Hs; cbn [ofold].
    - exists m. split; [done|]. split; [done|]. intros x Hx. apply Hs. by rewrite Ea, app_nil_r in Hx.
    - assert (Hn : acc !! length pre = Some n) by (rewrite Ea; by apply list_lookup_middle).
      destruct (Hacc _ _ Hn) as (G & _ & F). destruct (cone_step_ok v m n Hv G) as (m1 & -> & M1 & T1 & S1); [|done|].
      + intros x Hx. destruct (Hs x) as [t Et]; [|exists t; auto]. destruct (F x Hx) as [?|Hx2]; [by left|right].
        by rewrite Ea, take_app in Hx2.
      + cbn [mbind option_bind]. apply (IH (pre ++ [n])); [by rewrite Ea, <- app_assoc|done|].
        intros x [Hx|[Hx|Hx%elem_of_list_singleton]%elem_of_app].
        * destruct (Hs x) as [t Et]; [auto|]. rewrite (M1 x t Et). by eexists.
        * destruct (Hs x) as [t Et]; [auto|]. rewrite (M1 x t Et). by eexists.
        * by subst x. }
  apply (G acc [] (leaf_table leaves)); [done| |].
  - intros x t Hx. assert (x ∈ leaves) by (unfold leaf_table in Hx; by case_decide).
    destruct (leaf_table_ok v x Hnd) as (t' & E & Ht'); [done|]. congruence.
  - intros x [Hx|Hx]; [|by apply elem_of_nil in Hx]. destruct (leaf_table_ok (fun _ => false) x Hnd Hx) as (t & -> & _). by eexists.
Qed.
End cone.

Lemma cone_ok s leaves root : network s -> NoDup leaves -> (forall x, x ∈ leaves -> x < size s) -> covered s leaves root -> root ∉ leaves ->
  exists cone, collect_cone_nodes s leaves root = Some cone /\ ordered s leaves cone /\ root ∈ cone.
Proof.
  intros W Hnd Hl Hc Hr. unfold collect_cone_nodes. destruct (net_rank s W) as (rk & Hrk & Hb). pose proof (Hb root).
  destruct (dfs_ok s leaves rk (S (size s)) root (leaves, []) Hrk Hl Hc) as ([vs acc] & -> & [J1 J2] & Hin & _); [|lia|].
  - split; cbn; [|intros i n Hn; by rewrite lookup_nil in Hn]. intros n. rewrite elem_of_nil. tauto.
  - cbn [mbind option_bind snd fst] in *. exists acc. split; [done|]. split; [done|]. apply J1 in Hin as [?|?]; done.
Qed.

(* ---- depths ---- *)
Lemma source_fan s n : network s -> n ∈ 0 :: ins s -> aig_fan s n = Some [].
Proof.
  intros W Hn. unfold aig_fan, Clean.fanins. case_decide as Q; [done|]. apply elem_of_cons in Hn as [?|Hn]; [done|].
  apply elem_of_list_lookup in Hn as [k Hk]. destruct (net_in _ W k n Hk) as [_ E]. unfold is_ci. rewrite E. cbn.
  by rewrite bool_decide_eq_true_2.
Qed.
Lemma longest_source s n : (forall m, ~ fanin s n m) -> longest s n 0.
Proof. intros H. split; [exists n; constructor|]. intros d (m & Hm). destruct d; [lia|]. inversion Hm; subst. by destruct (H y). Qed.
Lemma longest_gate s n a b da db : ks s !! n = Some (a, b) -> n <> 0 -> a <> b ->
  longest s (sidx a) da -> longest s (sidx b) db -> longest s n (S (Nat.max da db)).
Proof.
  intros E H0 Hab [[ma Pa] Ha] [[mb Pb] Hb]. split.
  - destruct (Nat.max_spec da db) as [[_ ->]|[_ ->]].
    + exists mb. apply (nsteps_l _ _ _ (sidx b)); [exists a, b; auto|done].
    + exists ma. apply (nsteps_l _ _ _ (sidx a)); [exists a, b; auto|done].
  - intros d (m & Hm). destruct d; [lia|]. inversion Hm as [|? ? y ? (a' & b' & E' & _ & _ & Hy) Hr]; subst.
    rewrite E in E'. injection E' as <- <-. destruct Hy as [->| ->]; [pose proof (Ha d (ex_intro _ _ Hr))|pose proof (Hb d (ex_intro _ _ Hr))]; lia.
Qed.
Lemma source_or_gate s n : network s -> n < size s -> n ∈ 0 :: ins s \/ is_gate s n.
Proof.
  intros W H. destruct (lookup_lt_is_Some_2 (ks s) n H) as [[a b] E]. destruct (decide (a = b)) as [->|Hab].
  - left. apply elem_of_cons. by apply (net_ci _ W n b).
  - destruct (decide (n = 0)) as [->|Hn]; [left; left|]. right. by exists a, b.
Qed.
Lemma depth_step_source s (x : depths * nat) n : network s -> n < size s -> n ∈ 0 :: ins s -> x.1 n = None ->
  depth_step s x n = Some (setv x.1 n (Some 0), if decide (x.2 < 0) then 0 else x.2).
Proof.
  intros W Hn Hs Hx. unfold depth_step. destruct (is_pi_some s n Hn) as [pi ->]. cbn [mbind option_bind].
  rewrite (source_fan s n W Hs). cbn [mbind option_bind]. unfold child_depths. cbn [ofold mbind option_bind].
  unfold insert_new. destruct pi; rewrite Hx; [|done]. by rewrite setv_eq.
Qed.
Lemma depth_step_gate s (x : depths * nat) n a b da db : ks s !! n = Some (a, b) -> n <> 0 -> a <> b ->
  x.1 (sidx a) = Some da -> x.1 (sidx b) = Some db -> x.1 n = None ->
  depth_step s x n = Some (setv x.1 n (Some (S (Nat.max da db))), if decide (x.2 < S (Nat.max da db)) then S (Nat.max da db) else x.2).
Proof.
  intros E H0 Hab Ea Eb Hx. unfold depth_step. rewrite (is_pi_gate s n) by (by exists a, b). cbn [mbind option_bind].
  rewrite (gate_fan s n a b E H0 Hab). cbn [mbind option_bind]. unfold child_depths. cbn [ofold mbind option_bind].
  rewrite Ea. cbn [mbind option_bind]. rewrite Eb. cbn [mbind option_bind].
  assert ((if decide ((if decide (0 < da + 1) then da + 1 else 0) < db + 1) then db + 1 else if decide (0 < da + 1) then da + 1 else 0) = S (Nat.max da db)) as ->
    by (repeat case_decide; lia).
  unfold insert_new. by rewrite Hx.
Qed.
Lemma depth_info_ok s : network s -> exists l m d, aig_topo s = Some l /\ compute_depth_info s = Some (m, d) /\
  topo_order (aig_fan s) (0 :: ins s) (map sidx (outs s)) l /\
  (forall n, n ∈ l -> exists k, m n = Some k /\ longest s n k /\ k <= d) /\ (forall n, n ∉ l -> m n = None) /\
  (d = 0 \/ exists n, n ∈ l /\ m n = Some d).
Proof.
  intros W. destruct (aig_topo_spec s W) as (l & El & T & Hlt). exists l. unfold compute_depth_info. rewrite El. cbn [mbind option_bind].
  rewrite Forall_forall in Hlt.
  assert (G : forall post pre (x : depths * nat), l = pre ++ post ->
    (forall n, n ∈ pre -> exists k, x.1 n = Some k /\ longest s n k /\ k <= x.2) -> (forall n, n ∉ pre -> x.1 n = None) ->
    (x.2 = 0 \/ exists n, n ∈ pre /\ x.1 n = Some x.2) ->
    exists y, ofold (depth_step s) x post = Some y /\
    (forall n, n ∈ l -> exists k, y.1 n = Some k /\ longest s n k /\ k <= y.2) /\ (forall n, n ∉ l -> y.1 n = None) /\
    (y.2 = 0 \/ exists n, n ∈ l /\ y.1 n = Some y.2)).
  { induction post as [|n post IH]; intros pre x Ep H1 H2 H3; cbn [ofold].
    - exists x. rewrite app_nil_r in Ep. subst pre. auto.
    - assert (Hin : n ∈ l) by (rewrite Ep; apply elem_of_app; right; left).
      assert (Hnp : n ∉ pre). { pose proof (to_nodup _ _ _ _ T) as Hnd. rewrite Ep in Hnd. apply NoDup_app in Hnd as (_ & Hd & _). intros H. apply (Hd n H). left. }
      assert (Hnext : forall k, longest s n k -> exists y, ofold (depth_step s) (setv x.1 n (Some k), if decide (x.2 < k) then k else x.2) post = Some y /\
        (forall n, n ∈ l -> exists k, y.1 n = Some k /\ longest s n k /\ k <= y.2) /\ (forall n, n ∉ l -> y.1 n = None) /\
        (y.2 = 0 \/ exists n, n ∈ l /\ y.1 n = Some y.2)).
      { intros k Hk. apply (IH (pre ++ [n])); [by rewrite <- app_assoc|..]; cbn [fst snd].
        - intros j [Hj|Hj%elem_of_list_singleton]%elem_of_app.
          + rewrite setv_ne by (by intros ->). destruct (H1 j Hj) as (kj & Ej & Lj & Bj). exists kj. split; [done|]. split; [done|]. case_decide; lia.
          + subst j. rewrite setv_eq. exists k. split; [done|]. split; [done|]. case_decide; lia.
        - intros j Hj. rewrite not_elem_of_app, not_elem_of_cons in Hj. rewrite setv_ne by tauto. apply H2. tauto.
        - case_decide.
          + right. exists n. rewrite setv_eq. split; [|done]. apply elem_of_app. right. left.
          + destruct H3 as [->|(j & Hj & Ej)]; [by left|right]. exists j. split; [apply elem_of_app; by left|]. rewrite setv_ne; [done|]. by intros ->. }
      destruct (source_or_gate s n W (Hlt n Hin)) as [Hs|Hg].
      + rewrite (depth_step_source s x n W (Hlt n Hin) Hs (H2 n Hnp)). cbn [mbind option_bind].
        apply Hnext, longest_source. intros m. by apply source_no_fanin.
      + destruct Hg as (a & b & E & H0 & Hab).
        assert (Hpre : l !! length pre = Some n) by (rewrite Ep; by apply list_lookup_middle).
        assert (Hearly : forall c, fanin s n c -> c ∈ pre).
        { intros c Hc. destruct (to_after _ _ _ _ T (length pre) n c Hpre) as (j & Hj & Ej); [by apply edge_fanin|].
          rewrite Ep, lookup_app_l in Ej by done. by eapply elem_of_list_lookup_2. }
        destruct (H1 (sidx a)) as (da & Ea & La & _); [apply Hearly; exists a, b; auto|].
        destruct (H1 (sidx b)) as (db & Eb & Lb & _); [apply Hearly; exists a, b; auto|].
        rewrite (depth_step_gate s x n a b da db E H0 Hab Ea Eb (H2 n Hnp)). cbn [mbind option_bind].
        apply Hnext. by apply (longest_gate s n a b). }
  destruct (G l [] (fun _ => None, 0)) as ([m d] & -> & H1 & H2 & H3); [done|by intros n ?%elem_of_nil|done|by left|].
  exists m, d. split; [done|]. split; [done|]. split; [done|]. split; [done|]. split; [done|]. done.
Qed.
