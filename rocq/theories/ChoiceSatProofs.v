(* Lemmas about the SAT prover. *)
From Verif Require Import Base Aig AigSem AigHash AigProofs AigApi Cnf CnfProofs Choice ChoiceProofs ChoiceSat.

Lemma is_and_some s n : n < size s -> is_Some (is_and s n).
Proof.
  intros H. unfold is_and, is_ci. destruct (lookup_lt_is_Some_2 (ks s) n H) as [[a b] E]. rewrite E. eauto.
Qed.
Lemma gate_children s n : reachable s -> is_gate s n -> exists a b, ks s !! n = Some (a, b) /\ a <> b /\ sidx a < n /\ sidx b < n.
Proof.
  intros Hr (a & b & E & Hn & Hab). exists a, b. destruct (topological s n a b Hr E Hab) as (H1 & H2). repeat split; auto; lia.
Qed.
Lemma is_mux_some s n : reachable s -> n < size s -> is_Some (is_mux s n).
Proof.
  intros Hr H. unfold is_mux. destruct (is_and_some s n H) as [a Ea]. rewrite Ea. cbn. destruct a; cbn; [|eauto].
  apply is_and_gate in Ea as [Ea _]. destruct (gate_children s n Hr (Ea eq_refl)) as (x & y & E & _ & Hx & Hy).
  rewrite E. cbn. destruct (scompl x), (scompl y); cbn; eauto.
  destruct (is_and_some s (sidx x)) as [a0 E0]; [lia|]. rewrite E0. cbn. destruct a0; cbn; [|eauto].
  destruct (is_and_some s (sidx y)) as [a1 E1]; [lia|]. rewrite E1. cbn. destruct a1; cbn; [|eauto].
  destruct (lookup_lt_is_Some_2 (ks s) (sidx x)) as [k0 K0]; [unfold size in *; lia|].
  destruct (lookup_lt_is_Some_2 (ks s) (sidx y)) as [k1 K1]; [unfold size in *; lia|].
  rewrite K0, K1. cbn. eauto.
Qed.
Lemma fanout_some s n : reachable s -> n < size s -> is_Some (fanout_size s n).
Proof. intros Hr H. rewrite (fanout_exact s n Hr H). eauto. Qed.

Section prover.
Context (ps : sparams).

Definition enc (p : prover) (n : nat) : Prop := exists w, smap p !! n = Some w /\ w <> 0.
(* value of a node according to an assignment *)
Definition dec (s : aig) (p : prover) (x : nat -> bool) (n : nat) : bool :=
  xorb (x (default 0 (smap p !! n))) (polar_flip ps && default false (ph s !! n)).

Lemma agrees_dec s p v x : agrees ps s p v x <-> forall n, enc p n -> dec s p x n = v n.
Proof.
  unfold agrees, enc, dec, polar. split.
  - intros H n (w & E & Hw). rewrite E. cbn. rewrite (H n w E Hw). by destruct (v n), (polar_flip ps && _).
  - intros H n w E Hw. rewrite <- (H n) by eauto. rewrite E. cbn. by destruct (x w), (polar_flip ps && _).
Qed.

Lemma node_lit_some s p n c : reachable s -> n < size s -> is_Some (smap p !! n) ->
  exists l, node_lit ps s n c p = Some l /\ smap p !! n = Some (lit_var l) /\ forall x, lit_val x l = xorb (dec s p x n) c.
Proof.
  intros Hr Hn [w E]. destruct (phase_defined s n Hr Hn) as [b Eb]. unfold node_lit. rewrite E, Eb. cbn.
  eexists. split; [reflexivity|]. rewrite lit_var_not_cond, lit_var_make. split; [done|]. intros x.
  rewrite lit_val_not_cond, lit_val_make. unfold dec. rewrite E, Eb. cbn. by destruct (x w), c, (polar_flip ps && b).
Qed.

(* node n is determined by the encoded nodes before it *)
Definition fixes (s : aig) (p : prover) (n : nat) : Prop := forall x env, cnf_sat x (scls p) ->
  (forall m, m < n -> enc p m -> dec s p x m = ev s env m) -> dec s p x n = ev s env n.

Record pinv (s : aig) (sz : nat) (fr : list nat) (p : prover) : Prop := {
  pi_reach : reachable s;
  pi_size : size s <= sz;
  pi_len : length (smap p) = sz;
  pi_zero : smap p !! 0 = Some 1;
  pi_const : [make_lit 1 true] ∈ scls p;
  pi_inj : forall n m w, smap p !! n = Some w -> smap p !! m = Some w -> w <> 0 -> n = m;
  pi_lt : forall n w, smap p !! n = Some w -> w < svar p;
  pi_used : forall n, n ∈ sused p <-> n <> 0 /\ enc p n;
  pi_dom : forall n, enc p n -> n < size s;
  pi_nodup : NoDup (sused p);
  pi_var : svar p = 2 + length (sused p);
  pi_sound : forall env x, (forall n, enc p n -> dec s p x n = ev s env n) -> cnf_sat x (scls p);
  pi_fr : forall n, n ∈ fr -> enc p n /\ is_gate s n;
  pi_fix : forall n, enc p n -> is_gate s n -> n ∉ fr -> fixes s p n
}.

Lemma pinv_svar s sz fr p : pinv s sz fr p -> svar p <= size s + 1.
Proof.
  intros I. rewrite (pi_var _ _ _ _ I).
  assert (Hz : 0 < size s) by (apply wf_size, reachable_wf, I).
  assert (length (sused p) <= length (seq 1 (size s - 1))).
  { apply submseteq_length, NoDup_submseteq; [apply I|]. intros n Hn. apply (pi_used _ _ _ _ I) in Hn as [Hn He].
    apply (pi_dom _ _ _ _ I) in He. apply elem_of_seq. lia. }
  rewrite seq_length in H. lia.
Qed.

(* the state grows: encoded nodes keep their variables, clauses are added *)
Record pgrows (p p' : prover) : Prop := {
  pg_map : forall n w, smap p !! n = Some w -> w <> 0 -> smap p' !! n = Some w;
  pg_cls : forall c, c ∈ scls p -> c ∈ scls p';
  pg_calls : scalls p' = scalls p;
  pg_q : sq p' = sq p
}.
Lemma pgrows_refl p : pgrows p p. Proof. by constructor. Qed.
Lemma pgrows_trans p1 p2 p3 : pgrows p1 p2 -> pgrows p2 p3 -> pgrows p1 p3.
Proof. intros [] []. constructor; [auto|auto|congruence|congruence]. Qed.
Lemma pgrows_enc p p' n : pgrows p p' -> enc p n -> enc p' n.
Proof. intros G (w & E & Hw). exists w. split; [by apply G|done]. Qed.
Lemma pgrows_dec s p p' x n : pgrows p p' -> enc p n -> dec s p' x n = dec s p x n.
Proof. intros G (w & E & Hw). unfold dec. by rewrite E, (pg_map _ _ G _ _ E Hw). Qed.
Lemma pgrows_fixes s p p' n : pgrows p p' -> enc p n -> fixes s p n -> fixes s p' n.
Proof.
  intros G He F x env Hc Hm. rewrite (pgrows_dec s p p' x n G He). apply F.
  - intros c Hc'. by apply Hc, G.
  - intros m Hlt Hem. rewrite <- (pgrows_dec s p p' x m G Hem). by apply Hm; [|eapply pgrows_enc].
Qed.

Definition meas (s : aig) (fr : list nat) (p : prover) : nat := length fr + (size s + 1 - svar p).

Lemma add_to_frontier_wp s sz n fr p : pinv s sz fr p -> n < size s ->
  wp (add_to_frontier s n fr) p (fun fr' p' => pinv s sz fr' p' /\ pgrows p p' /\ enc p' n /\ scls p' = scls p /\
    meas s fr' p' <= meas s fr p /\ (forall m, m ∈ fr -> m ∈ fr') /\ (enc p n -> fr' = fr) /\
    svar p <= svar p' /\ length fr' <= S (length fr)).
Proof.
  intros I Hn. pose proof (pi_len _ _ _ _ I) as Hl. pose proof (pi_size _ _ _ _ I) as Hs. pose proof (pi_reach _ _ _ _ I) as Hr.
  unfold add_to_frontier, wp. destruct (lookup_lt_is_Some_2 (smap p) n) as [w E]; [lia|]. rewrite E. cbn.
  destruct (decide (w <> 0)) as [Hw|Hw].
  { split_and!; auto using pgrows_refl. by exists w. }
  assert (w = 0) as -> by lia. destruct (decide (n = 0)) as [->|Hn0].
  { rewrite (pi_zero _ _ _ _ I) in E. congruence. }
  destruct (is_and_some s n Hn) as [a Ea]. rewrite Ea. cbn.
  set (p' := Prover _ _ _ _ _ _).
  assert (Hnew : smap p' !! n = Some (svar p)) by (cbn; apply list_lookup_insert; lia).
  assert (Hold : forall m, m <> n -> smap p' !! m = smap p !! m) by (intros m Hm; cbn; by apply list_lookup_insert_ne).
  assert (Hv2 : svar p <> 0) by (rewrite (pi_var _ _ _ _ I); lia).
  assert (Hne : ~ enc p n) by (intros (w & E' & ?); congruence).
  assert (G : pgrows p p').
  { constructor; [|done|done|done]. intros m w Em Hw'. rewrite Hold; [done|]. intros ->. congruence. }
  assert (Henc : forall m, enc p' m <-> m = n \/ enc p m).
  { intros m. split.
    - intros (w & Em & Hw'). destruct (decide (m = n)) as [->|]; [by left|right]. rewrite Hold in Em by done. by exists w.
    - intros [->|He]; [by exists (svar p)|]. by eapply pgrows_enc. }
  assert (I' : pinv s sz (if a : bool then fr ++ [n] else fr) p').
  { constructor; try apply I.
    - cbn. by rewrite insert_length.
    - rewrite Hold by lia. apply I.
    - intros m1 m2 w E1 E2 Hw'. destruct (decide (m1 = n)) as [->|H1], (decide (m2 = n)) as [->|H2]; [done|..].
      + rewrite Hnew in E1. rewrite Hold in E2 by done. pose proof (pi_lt _ _ _ _ I _ _ E2). injection E1 as <-. lia.
      + rewrite Hnew in E2. rewrite Hold in E1 by done. pose proof (pi_lt _ _ _ _ I _ _ E1). injection E2 as <-. lia.
      + rewrite Hold in E1, E2 by done. by apply (pi_inj _ _ _ _ I m1 m2 w).
    - intros m w Em. cbn [p' svar]. destruct (decide (m = n)) as [->|H1].
      + rewrite Hnew in Em. injection Em as <-. lia.
      + rewrite Hold in Em by done. pose proof (pi_lt _ _ _ _ I _ _ Em). lia.
    - intros m. cbn [p' sused]. rewrite elem_of_app, elem_of_list_singleton, Henc, (pi_used _ _ _ _ I). split; [|tauto].
      intros [[]| ->]; auto.
    - intros m. rewrite Henc. intros [->|He]; [done|]. by apply (pi_dom _ _ _ _ I).
    - cbn [p' sused]. apply NoDup_app. split; [apply I|]. split; [|apply NoDup_singleton].
      intros m Hm. rewrite elem_of_list_singleton. intros ->. apply (pi_used _ _ _ _ I) in Hm as [_ Hm]. auto.
    - cbn. rewrite app_length. cbn. rewrite (pi_var _ _ _ _ I). lia.
    - intros env x Hx. cbn [p' scls]. apply (pi_sound _ _ _ _ I env). intros m Hm.
      rewrite <- (pgrows_dec s p p' x m G Hm). apply Hx. by eapply pgrows_enc.
    - intros m Hm. assert (m ∈ fr \/ (m = n /\ a = true)) as [H|[-> ->]].
      { destruct a; [|by left]. apply elem_of_app in Hm as [?|Hm]; [by left|]. apply elem_of_list_singleton in Hm. auto. }
      + split; [eapply pgrows_enc; [done|]|]; by apply (pi_fr _ _ _ _ I).
      + split; [by apply Henc; left|]. by apply (is_and_gate s n true).
    - intros m Hm Hg Hf. rewrite Henc in Hm. destruct Hm as [->|Hm].
      + exfalso. apply (is_and_gate s n a) in Ea. destruct Ea as [_ Ea]. rewrite (Ea Hg) in Hf. apply Hf.
        apply elem_of_app. right. by apply elem_of_list_singleton.
      + apply (pgrows_fixes s p p' m G Hm), (pi_fix _ _ _ _ I); [done|done|]. intros Hc. apply Hf.
        destruct a; [|done]. apply elem_of_app. by left. }
  split; [exact I'|]. split; [exact G|]. split; [apply Henc; by left|]. split; [done|].
  pose proof (pinv_svar _ _ _ _ I') as Hv. cbn [p' svar] in Hv. split_and!.
  - unfold meas. cbn [p' svar]. destruct a; [rewrite app_length; cbn|]; lia.
  - intros m Hm. destruct a; [|done]. apply elem_of_app. by left.
  - done.
  - cbn. lia.
  - destruct a; [rewrite app_length; cbn|]; lia.
Qed.

Lemma frontier_wp s sz l : forall fr p, pinv s sz fr p -> Forall (valid s) l ->
  wp (foldM (fun fr g => add_to_frontier s (sidx g) fr) fr l) p (fun fr' p' => pinv s sz fr' p' /\ pgrows p p' /\
    (forall g, g ∈ l -> enc p' (sidx g)) /\ meas s fr' p' <= meas s fr p /\ (forall m, m ∈ fr -> m ∈ fr')).
Proof.
  induction l as [|g l IH]; intros fr p I Hl; cbn [foldM].
  - apply wp_ret. split_and!; auto using pgrows_refl. intros g Hg. by apply elem_of_nil in Hg.
  - inversion Hl as [|? ? Hg Hl']; subst. apply wp_bnd. eapply wp_mono; [by apply add_to_frontier_wp|]. cbn beta.
    intros fr1 p1 (I1 & G1 & E1 & _ & M1 & F1 & _). eapply wp_mono; [by apply IH|]. cbn beta.
    intros fr2 p2 (I2 & G2 & E2 & M2 & F2). split_and!; auto.
    + by eapply pgrows_trans.
    + intros h Hh. apply elem_of_cons in Hh as [->|Hh]; [by eapply pgrows_enc|auto].
    + lia.
Qed.

(* ---- supergates ---- *)
Lemma forallb_push (f : signal -> bool) l g : forallb f (push_unique l g) = forallb f l && f g.
Proof.
  unfold push_unique. destruct (decide (g ∈ l)) as [H|H].
  - destruct (f g) eqn:E; [by rewrite andb_true_r|]. rewrite andb_false_r. apply not_true_iff_false. intros H'.
    rewrite forallb_forall in H'. apply elem_of_list_In in H. specialize (H' g H). congruence.
  - rewrite forallb_app. cbn. by rewrite andb_true_r.
Qed.
Lemma push_unique_elem l g h : h ∈ push_unique l g <-> h ∈ l \/ h = g.
Proof.
  unfold push_unique. destruct (decide (g ∈ l)) as [H|H].
  - split; [by left|]. by intros [?| ->].
  - by rewrite elem_of_app, elem_of_list_singleton.
Qed.

Lemma collect_super_spec s env v : reachable s -> valuation s env v -> forall fuel f l first, sidx f < fuel -> valid s f ->
  exists l', collect_super s fuel f l first = Some l' /\
    forallb (sval v) l' = forallb (sval v) l && sval v f /\
    (forall g, g ∈ l' -> g ∈ l \/ (sidx g <= sidx f)).
Proof.
  intros Hr Hv. induction fuel as [|fuel IH]; intros f l first Hf Hvf; [lia|]. cbn [collect_super].
  assert (Hpush : exists l', Some (push_unique l f) = Some l' /\
    forallb (sval v) l' = forallb (sval v) l && sval v f /\ (forall g, g ∈ l' -> g ∈ l \/ (sidx g <= sidx f))).
  { eexists. split; [reflexivity|]. split; [apply forallb_push|]. intros g Hg. apply push_unique_elem in Hg as [?| ->]; [by left|by right]. }
  destruct (scompl f) eqn:Hc; [done|].
  unfold valid in Hvf. destruct (lookup_lt_is_Some_2 (ks s) (sidx f) Hvf) as [[a b] E].
  destruct (is_ci s (sidx f)) as [ci|] eqn:Eci; [|unfold is_ci in Eci; by rewrite E in Eci]. cbn.
  destruct ci; [done|]. destruct (fanout_some s (sidx f) Hr Hvf) as [fs Efs]. rewrite Efs. cbn.
  destruct (negb first && bool_decide (1 < fs)%N); [done|].
  destruct (is_mux_some s (sidx f) Hr Hvf) as [m Em]. rewrite Em. cbn. destruct m; [done|].
  apply (is_ci_false s _ Hr) in Eci. destruct (gate_children s _ Hr Eci) as (a' & b' & E' & _ & Ha & Hb).
  rewrite E' in E. injection E as -> ->. rewrite E'. cbn.
  destruct (IH a l false) as (l1 & R1 & V1 & S1); [lia|unfold valid; lia|]. rewrite R1. cbn.
  destruct (IH b l1 false) as (l2 & R2 & V2 & S2); [lia|unfold valid; lia|]. rewrite R2.
  exists l2. split; [done|]. split.
  - assert (sval v f = sval v a && sval v b) as ->.
    { unfold sval at 1. by rewrite Hc, xorb_false_r, (gate_val s env v _ _ _ Hv Eci E'). }
    by rewrite V2, V1, andb_assoc.
  - intros g Hg. destruct (S2 g Hg) as [H|H]; [|right; lia]. destruct (S1 g H) as [|]; [by left|right; lia].
Qed.
(* the result does not depend on the valuation *)
Lemma collect_super_root s n : reachable s -> is_gate s n -> is_mux s n = Some false ->
  exists l, collect_super s (S (size s)) (Sig n false) [] true = Some l /\
    (forall env v, valuation s env v -> v n = forallb (sval v) l) /\ Forall (fun g => sidx g < n) l.
Proof.
  intros Hr Hg Hm. destruct (gate_children s n Hr Hg) as (a & b & E & _ & Ha & Hb).
  assert (Hn : n < size s) by (apply lookup_lt_Some in E; done).
  pose proof (ev_valuation s (fun _ => false) (reachable_wf s Hr)) as Hv0.
  destruct (collect_super_spec s _ _ Hr Hv0 (S (size s)) (Sig n false) [] true) as (l & El & _ & _); [cbn; lia|done|].
  exists l. split; [done|]. split.
  - intros env v Hv. destruct (collect_super_spec s _ _ Hr Hv (S (size s)) (Sig n false) [] true) as (l' & El' & Vl & _); [cbn; lia|done|].
    rewrite El in El'. injection El' as <-. rewrite Vl. cbn. unfold sval. cbn. by rewrite xorb_false_r.
  - revert El. cbn [collect_super scompl sidx].
    rewrite (proj2 (is_ci_false s n Hr) Hg). cbn. destruct (fanout_some s n Hr Hn) as [fs Efs]. rewrite Efs. cbn.
    rewrite Hm. cbn. rewrite E. cbn.
    destruct (collect_super_spec s _ _ Hr Hv0 (size s) a [] false) as (l1 & R1 & _ & S1); [unfold valid in *; lia|unfold valid; lia|].
    rewrite R1. cbn.
    destruct (collect_super_spec s _ _ Hr Hv0 (size s) b l1 false) as (l2 & R2 & _ & S2); [unfold valid in *; lia|unfold valid; lia|].
    rewrite R2. intros [= <-]. apply Forall_forall. intros g Hgl. destruct (S2 g Hgl) as [H|]; [|lia].
    destruct (S1 g H) as [H'|]; [by apply elem_of_nil in H'|lia].
Qed.

(* ---- clauses of one node ---- *)
Lemma pinv_add_cls s sz fr p cls n rest : pinv s sz fr p -> (forall m, m ∈ fr -> m = n \/ m ∈ rest) -> (forall m, m ∈ rest -> m ∈ fr) ->
  (forall env x, (forall m, enc p m -> dec s p x m = ev s env m) -> cnf_sat x cls) ->
  (n ∈ fr -> n ∉ rest -> forall x env, cnf_sat x cls ->
    (forall m, m < n -> enc p m -> dec s p x m = ev s env m) -> dec s p x n = ev s env n) ->
  wp (add_cls cls) p (fun _ p' => pinv s sz rest p' /\ pgrows p p' /\ smap p' = smap p /\ svar p' = svar p).
Proof.
  intros I Hfr Hrest Hs Hd. unfold add_cls, wp. set (p' := Prover _ _ _ _ _ _).
  assert (G : pgrows p p') by (constructor; [done| |done|done]; intros c Hc; cbn; apply elem_of_app; by left).
  split; [|done]. constructor; try apply I.
  - cbn. apply elem_of_app. left. apply I.
  - intros env x Hx. cbn [p' scls]. apply cnf_app. split; [by apply (pi_sound _ _ _ _ I env)|by apply (Hs env)].
  - intros m Hm. apply (pi_fr _ _ _ _ I). by apply Hrest.
  - intros m Hm Hg Hnr. destruct (decide (m ∈ fr)) as [Hin|Hin].
    + destruct (Hfr m Hin) as [->|?]; [|done]. intros x env Hc Hb. cbn [p' scls] in Hc. apply cnf_app in Hc as [_ Hc].
      by apply Hd.
    + apply (pgrows_fixes s p p' m G Hm). by apply (pi_fix _ _ _ _ I).
Qed.

Lemma sval_ext v w f : v (sidx f) = w (sidx f) -> sval v f = sval w f.
Proof. unfold sval. by intros ->. Qed.

Lemma mux_clauses_spec x i0 i1 t0 t1 e0 e1 f0 f1 (extra : bool) :
  lit_val x i1 = negb (lit_val x i0) -> lit_val x t1 = negb (lit_val x t0) ->
  lit_val x e1 = negb (lit_val x e0) -> lit_val x f1 = negb (lit_val x f0) ->
  cnf_sat x ([[i1; t1; f0]; [i1; t0; f1]; [i0; e1; f0]; [i0; e0; f1]] ++
             (if extra then [] else [[t0; e0; f1]; [t1; e1; f0]])) <->
  lit_val x f0 = if lit_val x i0 then lit_val x t0 else lit_val x e0.
Proof.
  intros H1 H2 H3 H4. rewrite cnf_app, !cls_b_spec. unfold cls_b. destruct extra; cbn; rewrite H1, H2, H3, H4;
    destruct (lit_val x i0), (lit_val x t0), (lit_val x e0), (lit_val x f0); cbn; intuition done.
Qed.

Lemma super_clauses_spec x f0 f1 ls ls' :
  lit_val x f1 = negb (lit_val x f0) -> Forall2 (fun l l' => lit_val x l' = negb (lit_val x l)) ls ls' ->
  cnf_sat x (map (fun l => [l; f1]) ls ++ [ls' ++ [f0]]) <-> lit_val x f0 = forallb (lit_val x) ls.
Proof.
  intros Hf Hl. rewrite cnf_app.
  assert (H1 : cnf_sat x (map (fun l => [l; f1]) ls) <-> (lit_val x f0 = true -> forallb (lit_val x) ls = true)).
  { rewrite forallb_forall. split.
    - intros H H0 l Hin. destruct (H [l; f1]) as (k & Hk & Hv).
      { apply elem_of_list_In, in_map_iff. eauto. }
      apply elem_of_cons in Hk as [->|Hk]; [done|]. apply elem_of_list_singleton in Hk as ->. by rewrite Hf, H0 in Hv.
    - intros H c Hc. apply elem_of_list_In, in_map_iff in Hc as (l & <- & Hin). destruct (lit_val x f0) eqn:E0.
      + exists l. split; [apply elem_of_cons; by left|]. by apply H.
      + exists f1. split; [apply elem_of_cons; right; by apply elem_of_list_singleton|]. by rewrite Hf. }
  assert (H2 : cnf_sat x [ls' ++ [f0]] <-> (forallb (lit_val x) ls = true -> lit_val x f0 = true)).
  { assert (Hneg : (exists l, l ∈ ls' /\ lit_val x l = true) <-> forallb (lit_val x) ls = false).
    { clear -Hl. induction Hl as [|l l' ls ls' H _ IH]; cbn.
      - split; [|done]. intros (l & Hl & _). by apply elem_of_nil in Hl.
      - rewrite andb_false_iff, <- IH. split.
        + intros (k & Hk & Hv). apply elem_of_cons in Hk as [->|Hk]; [left; rewrite H in Hv; by destruct (lit_val x l)|right; eauto].
        + intros [E|(k & Hk & Hv)]; [exists l'|exists k]; rewrite elem_of_cons; [rewrite H, E|]; auto. }
    unfold cnf_sat. split.
    - intros H Ht. destruct (H (ls' ++ [f0])) as (k & Hk & Hv); [by apply elem_of_list_singleton|].
      apply elem_of_app in Hk as [Hk|Hk]; [|apply elem_of_list_singleton in Hk; by subst].
      rewrite (proj1 Hneg) in Ht; [done|eauto].
    - intros H c Hc. apply elem_of_list_singleton in Hc as ->. destruct (forallb (lit_val x) ls) eqn:E.
      + exists f0. split; [apply elem_of_app; right; by apply elem_of_list_singleton|auto].
      + destruct (proj2 Hneg eq_refl) as (l & Hin & Hv). exists l. split; [apply elem_of_app; by left|done]. }
  rewrite H1, H2. destruct (lit_val x f0), (forallb (lit_val x) ls); intuition.
Qed.

Lemma enc_some p n : enc p n -> is_Some (smap p !! n).
Proof. intros (w & E & _). eauto. Qed.

Lemma super_lits s p c : reachable s -> forall l, Forall (fun g => sidx g < size s /\ enc p (sidx g)) l ->
  exists ls, opt_map (fun g => node_lit ps s (sidx g) (xorb (scompl g) c) p) l = Some ls /\
    Forall2 (fun g k => forall x, lit_val x k = xorb (sval (dec s p x) g) c) l ls.
Proof.
  intros Hr. induction 1 as [|g l [Hg He] _ (ls & E & F)]; cbn [opt_map]; [eauto|].
  destruct (node_lit_some s p (sidx g) (xorb (scompl g) c) Hr Hg (enc_some p _ He)) as (k & Ek & _ & Vk).
  rewrite Ek. cbn. rewrite E. cbn. eexists. split; [reflexivity|]. constructor; [|done].
  intros x. rewrite Vk. unfold sval. by destruct (dec s p x (sidx g)), (scompl g), c.
Qed.


Lemma add_to_frontier_prefix s n q fr p : add_to_frontier s n (q ++ fr) p =
  match add_to_frontier s n fr p with Some (fr', p') => Some (q ++ fr', p') | None => None end.
Proof.
  unfold add_to_frontier. destruct (smap p !! n) as [w|]; [|done]. cbn. destruct (decide (w <> 0)); [done|].
  destruct (decide (n = 0)); [done|]. destruct (is_and s n) as [a|]; [|done]. cbn. destruct a; [|done]. by rewrite app_assoc.
Qed.
Lemma frontier_prefix s q l : forall fr p,
  foldM (fun fr (g : signal) => add_to_frontier s (sidx g) fr) (q ++ fr) l p =
  match foldM (fun fr (g : signal) => add_to_frontier s (sidx g) fr) fr l p with Some (fr', p') => Some (q ++ fr', p') | None => None end.
Proof.
  induction l as [|g l IH]; intros fr p; cbn [foldM]; [done|]. unfold bnd. rewrite add_to_frontier_prefix.
  destruct (add_to_frontier s (sidx g) fr p) as [[fr1 p1]|]; [|done]. apply IH.
Qed.
Lemma frontier_pending_wp s sz q l fr p : pinv s sz (q ++ fr) p -> Forall (valid s) l ->
  wp (foldM (fun fr (g : signal) => add_to_frontier s (sidx g) fr) fr l) p (fun fr' p' => pinv s sz (q ++ fr') p' /\ pgrows p p' /\
    (forall g, g ∈ l -> enc p' (sidx g)) /\ meas s fr' p' <= meas s fr p).
Proof.
  intros I Hl. pose proof (frontier_wp s sz l (q ++ fr) p I Hl) as H. revert H. unfold wp. rewrite frontier_prefix.
  destruct (foldM _ fr l p) as [[fr' p']|]; [|done]. intros (H1 & H2 & H3 & H4 & _). split_and!; auto.
  unfold meas in *. rewrite !app_length in H4. lia.
Qed.

Lemma encode_node_wp s sz n rest p : pinv s sz (n :: rest) p ->
  wp (encode_node ps s n rest) p (fun fr' p' => pinv s sz fr' p' /\ pgrows p p' /\
    meas s fr' p' < meas s (n :: rest) p).
Proof.
  (* the popped node stays pending until its clauses are added *)
  intros I. pose proof (pi_reach _ _ _ _ I) as Hr.
  destruct (pi_fr _ _ _ _ I n) as [He Hg]; [apply elem_of_cons; by left|].
  assert (Hn : n < size s) by by apply (pi_dom _ _ _ _ I).
  pose proof (fun env => ev_valuation s env (reachable_wf s Hr)) as Hev.
  assert (Hmeas : forall l p', meas s l p' <= meas s rest p -> meas s l p' < meas s (n :: rest) p).
  { unfold meas. cbn. intros. lia. }
  destruct He as (w & Ew & Hw). unfold encode_node, wp. rewrite Ew. cbn [mbind option_bind].
  destruct (decide (w = 0)) as [|_]; [done|].
  destruct (is_mux_some s n Hr Hn) as [m Em]. rewrite Em. cbn [mbind option_bind]. destruct m.
  - destruct (mux_inv s n Em) as (x0 & x1 & k0 & k1 & E & _ & K0 & K1 & G0 & G1 & _).
    rewrite E. cbn [mbind option_bind fst snd sidx]. rewrite K0, K1. cbn [mbind option_bind].
    destruct (gate_children s n Hr Hg) as (a & b & E' & _ & Ha & Hb). rewrite E in E'. injection E' as <- <-. cbn in Ha, Hb.
    destruct (gate_children s x0 Hr G0) as (a0 & b0 & E0 & _ & Ha0 & Hb0). rewrite K0 in E0. injection E0 as ->.
    destruct (gate_children s x1 Hr G1) as (a1 & b1 & E1 & _ & Ha1 & Hb1). rewrite K1 in E1. injection E1 as ->.
    cbn [fst snd]. set (fanins := push_unique (push_unique (push_unique (push_unique [] _) _) _) _).
    assert (Hfan : forall g, g ∈ fanins <-> g = spos a0 \/ g = spos a1 \/ g = spos b0 \/ g = spos b1).
    { intros g. unfold fanins. rewrite !push_unique_elem. cbn. pose proof (not_elem_of_nil g). tauto. }
    assert (Hlt : forall g, g ∈ fanins -> sidx g < n).
    { intros g Hgf. apply Hfan in Hgf as [->|[->|[->| ->]]]; cbn; lia. }
    pose proof (frontier_pending_wp s sz [n] fanins rest p I) as Hw1.
    destruct (wp_elim _ _ _ (Hw1 ltac:(apply Forall_forall; intros g Hgf; apply Hlt in Hgf; unfold valid; lia))) as (fr1 & p1 & R1 & I1 & Gr1 & En1 & M1).
    unfold bnd. rewrite R1.
    destruct (recognize_mux_total s n Em) as (i & t & e & Rm & Hi & Vm & Gi & Gt & Ge).
    assert (Hgc : forall f, grandchild s n f -> sidx f < n /\ enc p1 (sidx f)).
    { intros f (a & b & x & y & Ea & Hxy & Hf). rewrite E in Ea. injection Ea as <- <-. cbn in Hxy.
      assert (exists g, g ∈ fanins /\ sidx g = sidx f) as (g & Hgf & <-).
      { rewrite K0, K1 in Hxy. destruct Hxy as [Exy|Exy]; injection Exy as <- <-; destruct Hf as [->| ->]; eexists; rewrite Hfan.
        - split; [by left|done].
        - split; [right; right; by left|done].
        - split; [right; by left|done].
        - split; [right; right; by right|done]. }
      auto. }
    destruct (Hgc _ Gi) as [Li Eni]. destruct (Hgc _ Gt) as [Lt Ent]. destruct (Hgc _ Ge) as [Le Ene].
    assert (Enn : enc p1 n) by (eapply pgrows_enc; [done|by exists w]).
    unfold add_clauses_mux. rewrite Rm. cbn [mbind option_bind].
    destruct (enc_some _ _ Ent) as [vt Evt]. destruct (enc_some _ _ Ene) as [ve Eve]. rewrite Evt, Eve. cbn [mbind option_bind].
    destruct (node_lit_some s p1 (sidx i) false Hr ltac:(lia) (enc_some _ _ Eni)) as (i0 & -> & _ & Vi0).
    destruct (node_lit_some s p1 (sidx i) true Hr ltac:(lia) (enc_some _ _ Eni)) as (i1 & -> & _ & Vi1).
    destruct (node_lit_some s p1 (sidx t) (scompl t) Hr ltac:(lia) (enc_some _ _ Ent)) as (t0 & -> & _ & Vt0).
    destruct (node_lit_some s p1 (sidx t) (negb (scompl t)) Hr ltac:(lia) (enc_some _ _ Ent)) as (t1 & -> & _ & Vt1).
    destruct (node_lit_some s p1 (sidx e) (scompl e) Hr ltac:(lia) (enc_some _ _ Ene)) as (e0 & -> & _ & Ve0).
    destruct (node_lit_some s p1 (sidx e) (negb (scompl e)) Hr ltac:(lia) (enc_some _ _ Ene)) as (e1 & -> & _ & Ve1).
    destruct (node_lit_some s p1 n false Hr Hn (enc_some _ _ Enn)) as (f0 & -> & _ & Vf0).
    destruct (node_lit_some s p1 n true Hr Hn (enc_some _ _ Enn)) as (f1 & -> & _ & Vf1).
    cbn [mbind option_bind]. set (cls := _ ++ _).
    assert (Hcls : forall x, cnf_sat x cls <-> dec s p1 x n = if sval (dec s p1 x) i then sval (dec s p1 x) t else sval (dec s p1 x) e).
    { intros x. unfold cls.
      assert ((if decide (vt = ve) then [] else [[t0; e0; f1]; [t1; e1; f0]]) =
              (if bool_decide (vt = ve) then [] else [[t0; e0; f1]; [t1; e1; f0]])) as ->.
      { destruct (decide (vt = ve)) as [Hd|Hd]; [by rewrite bool_decide_true|by rewrite bool_decide_false]. }
      rewrite (mux_clauses_spec x i0 i1 t0 t1 e0 e1 f0 f1).
      - rewrite Vi0, Vt0, Ve0, Vf0. unfold sval. by rewrite Hi, xorb_false_r.
      - rewrite Vi0, Vi1. by destruct (dec s p1 x (sidx i)).
      - rewrite Vt0, Vt1. by destruct (dec s p1 x (sidx t)), (scompl t).
      - rewrite Ve0, Ve1. by destruct (dec s p1 x (sidx e)), (scompl e).
      - rewrite Vf0, Vf1. by destruct (dec s p1 x n). }
    pose proof (pinv_add_cls s sz ([n] ++ fr1) p1 cls n fr1 I1) as Hadd. unfold wp in Hadd. cbn [add_cls] in *.
    destruct Hadd as (I2 & Gr2 & Hm2 & Hv2).
    + intros m Hm. apply elem_of_app in Hm as [Hm|Hm]; [left; by apply elem_of_list_singleton in Hm|by right].
    + intros m Hm. apply elem_of_app. by right.
    + intros env x Hx. apply Hcls. rewrite (Hx n Enn), (Vm env _ (Hev env)).
      by rewrite !(sval_ext (dec s p1 x) (ev s env)) by auto.
    + intros _ _ x env Hc Hbb. apply Hcls in Hc. rewrite Hc, (Vm env _ (Hev env)).
      by rewrite !(sval_ext (dec s p1 x) (ev s env)) by auto.
    + cbn [ret]. split; [exact I2|]. split; [by eapply pgrows_trans|]. apply Hmeas. unfold meas in *. rewrite Hv2. exact M1.
  - rewrite (proj2 (is_ci_false s n Hr) Hg). cbn [mbind option_bind].
    destruct (collect_super_root s n Hr Hg Em) as (l & El & Vl & Fl). rewrite El. cbn [mbind option_bind].
    assert (Hlt : forall g, g ∈ l -> sidx g < n) by by apply Forall_forall.
    pose proof (frontier_pending_wp s sz [n] l rest p I) as Hw1.
    destruct (wp_elim _ _ _ (Hw1 ltac:(apply Forall_forall; intros g Hgf; apply Hlt in Hgf; unfold valid; lia))) as (fr1 & p1 & R1 & I1 & Gr1 & En1 & M1).
    unfold bnd. rewrite R1.
    assert (Enn : enc p1 n) by (eapply pgrows_enc; [done|by exists w]).
    unfold add_clauses_super. destruct (is_and_some s n Hn) as [a Ea]. rewrite Ea. cbn [mbind option_bind].
    rewrite (proj2 (is_and_gate s n a Ea) Hg). cbn [negb].
    destruct (node_lit_some s p1 n false Hr Hn (enc_some _ _ Enn)) as (f0 & -> & _ & Vf0).
    destruct (node_lit_some s p1 n true Hr Hn (enc_some _ _ Enn)) as (f1 & -> & _ & Vf1).
    cbn [mbind option_bind].
    assert (Hl : Forall (fun g => sidx g < size s /\ enc p1 (sidx g)) l).
    { apply Forall_forall. intros g Hgl. split; [apply Hlt in Hgl; lia|auto]. }
    destruct (super_lits s p1 false Hr l Hl) as (ls & Els & Vls).
    destruct (super_lits s p1 true Hr l Hl) as (ls' & Els' & Vls').
    assert (opt_map (fun g => node_lit ps s (sidx g) (scompl g) p1) l = Some ls) as ->.
    { rewrite <- Els. clear. induction l as [|g l IH]; [done|]. cbn [opt_map]. by rewrite IH, xorb_false_r. }
    assert (opt_map (fun g => node_lit ps s (sidx g) (negb (scompl g)) p1) l = Some ls') as ->.
    { rewrite <- Els'. clear. induction l as [|g l IH]; [done|]. cbn [opt_map]. by rewrite IH, xorb_true_r. }
    cbn [mbind option_bind]. set (cls := _ ++ _).
    assert (Hcls : forall x, cnf_sat x cls <-> dec s p1 x n = forallb (sval (dec s p1 x)) l).
    { intros x. unfold cls. rewrite super_clauses_spec.
      - rewrite Vf0, xorb_false_r.
        assert (forallb (lit_val x) ls = forallb (sval (dec s p1 x)) l) as ->; [|done].
        clear -Vls. induction Vls as [|g k l ls H _ IH]; [done|]. cbn. by rewrite IH, H, xorb_false_r.
      - rewrite Vf0, Vf1. by destruct (dec s p1 x n).
      - clear -Vls Vls'. revert ls' Vls'. induction Vls as [|g k l ls H _ IH]; intros ls' V; inversion V as [|? k' ? ls'' H' V']; subst; constructor.
        + rewrite H, H'. by destruct (sval (dec s p1 x) g).
        + by apply IH. }
    assert (Hfb : forall x env, (forall g, g ∈ l -> dec s p1 x (sidx g) = ev s env (sidx g)) ->
      forallb (sval (dec s p1 x)) l = forallb (sval (ev s env)) l).
    { intros x env. clear. induction l as [|g l IH]; intros H; [done|]. cbn. rewrite IH.
      - f_equal. apply sval_ext, H, elem_of_cons. by left.
      - intros h Hh. apply H, elem_of_cons. by right. }
    pose proof (pinv_add_cls s sz ([n] ++ fr1) p1 cls n fr1 I1) as Hadd. unfold wp in Hadd. cbn [add_cls] in *.
    destruct Hadd as (I2 & Gr2 & Hm2 & Hv2).
    + intros m Hm. apply elem_of_app in Hm as [Hm|Hm]; [left; by apply elem_of_list_singleton in Hm|by right].
    + intros m Hm. apply elem_of_app. by right.
    + intros env x Hx. apply Hcls. rewrite (Hx n Enn), (Vl env _ (Hev env)). symmetry. apply Hfb. auto.
    + intros _ _ x env Hc Hbb. apply Hcls in Hc. rewrite Hc, (Vl env _ (Hev env)). apply Hfb. auto.
    + cbn [ret]. split; [exact I2|]. split; [by eapply pgrows_trans|]. apply Hmeas. unfold meas in *. rewrite Hv2. exact M1.
Qed.

Lemma explore_wp s sz : forall fuel fr p, pinv s sz fr p -> meas s fr p < fuel ->
  wp (explore ps s fuel fr) p (fun _ p' => pinv s sz [] p' /\ pgrows p p').
Proof.
  induction fuel as [|fuel IH]; intros fr p I Hf; [lia|]. cbn [explore]. destruct fr as [|n rest].
  - apply wp_ret. split; [done|apply pgrows_refl].
  - apply wp_bnd. eapply wp_mono; [by apply encode_node_wp|]. cbn beta. intros fr' p' (I' & G & Hm).
    eapply wp_mono; [apply IH; [done|lia]|]. cbn beta. intros _ p'' (I'' & G'). split; [done|by eapply pgrows_trans].
Qed.

Lemma cnf_node_wp s sz n p : pinv s sz [] p -> n < size s ->
  wp (cnf_node ps s n) p (fun _ p' => pinv s sz [] p' /\ pgrows p p' /\ enc p' n).
Proof.
  intros I Hn. pose proof (pi_len _ _ _ _ I) as Hl. pose proof (pi_size _ _ _ _ I) as Hs.
  unfold cnf_node, wp. destruct (lookup_lt_is_Some_2 (smap p) n) as [w E]; [lia|]. rewrite E. cbn [mbind option_bind].
  destruct (decide (w <> 0)) as [Hw|Hw]; [split_and!; [done|apply pgrows_refl|by exists w]|].
  enough (wp (let! fr := add_to_frontier s n [] in explore ps s (S (size s)) fr) p
            (fun _ p' => pinv s sz [] p' /\ pgrows p p' /\ enc p' n)) as H by exact H.
  apply wp_bnd. eapply wp_mono; [by apply add_to_frontier_wp|]. cbn beta.
  intros fr p1 (I1 & G1 & E1 & _ & _ & _ & _ & Hv & Hfr). cbn in Hfr.
  pose proof (pinv_svar _ _ _ _ I1) as Hv1. pose proof (pi_var _ _ _ _ I) as Hv0. pose proof (pi_var _ _ _ _ I1) as Hv1'.
  eapply wp_mono; [apply (explore_wp s sz); [done|unfold meas; lia]|]. cbn beta.
  intros _ p2 (I2 & G2). split_and!; [done|by eapply pgrows_trans|by eapply pgrows_enc].
Qed.

(* ---- start, restart, growth ---- *)
Lemma fresh_inv s sz m k q : reachable s -> size s <= sz -> length m = sz -> m !! 0 = Some 1 ->
  (forall n w, m !! n = Some w -> n <> 0 -> w = 0) ->
  pinv s sz [] (Prover 2 m [] [[make_lit 1 true]] k q).
Proof.
  intros Hr Hs Hl H0 Hz. set (p := Prover _ _ _ _ _ _).
  assert (He : forall n, enc p n <-> n = 0).
  { intros n. split.
    - intros (w & E & Hw). destruct (decide (n = 0)); [done|]. by rewrite (Hz n w E) in Hw.
    - intros ->. by exists 1. }
  pose proof (wf_size s (reachable_wf s Hr)) as Hpos. constructor; try done.
  - by apply elem_of_list_singleton.
  - intros n1 n2 w E1 E2 Hw. destruct (He n1) as [H1 _]. destruct (He n2) as [H2 _].
    rewrite H1, H2; [done|by exists w|by exists w].
  - intros n w E. cbn. destruct (decide (n = 0)) as [->|Hn]; [cbn in E; rewrite H0 in E; injection E as <-; lia|].
    rewrite (Hz n w E Hn). lia.
  - intros n. rewrite He. cbn. pose proof (not_elem_of_nil n). tauto.
  - intros n ->%He. done.
  - apply NoDup_nil_2.
  - intros env x Hx c Hc. apply elem_of_list_singleton in Hc as ->. apply clause_unit. rewrite lit_val_make.
    specialize (Hx 0 (proj2 (He 0) eq_refl)). rewrite (ev_const s env (reachable_wf s Hr)) in Hx. unfold dec in Hx. cbn in Hx.
    rewrite H0 in Hx. cbn in Hx. destruct (phase_defined s 0 Hr Hpos) as [b Eb].
    rewrite Eb in Hx. cbn in Hx. rewrite (phase_exact s 0 b _ Hr Eb (ev_valuation s _ (reachable_wf s Hr))) in Hx.
    rewrite (ev_const s _ (reachable_wf s Hr)) in Hx. destruct (polar_flip ps); cbn in Hx; by destruct (x 1).
  - intros n Hn. by apply elem_of_nil in Hn.
  - intros n ->%He (a & b & _ & ? & _). done.
Qed.
Lemma init_inv s sz p : reachable s -> size s <= sz -> prover_init sz = Some p -> pinv s sz [] p.
Proof.
  intros Hr Hs. unfold prover_init. destruct sz as [|sz]; [done|]. cbn. intros [= <-].
  apply fresh_inv; [done|done|cbn; by rewrite repeat_length|done|].
  intros [|n] w E Hn; [done|]. cbn in E. apply elem_of_list_lookup_2, elem_of_list_In in E. by apply repeat_spec in E.
Qed.
Lemma reset_vars_spec : forall l m, Forall (fun n => n < length m) l -> exists m', reset_vars l m = Some m' /\ length m' = length m /\
  (forall n, n ∈ l -> m' !! n = Some 0) /\ (forall n, n ∉ l -> m' !! n = m !! n).
Proof.
  induction l as [|n l IH]; intros m Hl; cbn [reset_vars].
  - exists m. split_and!; [done|done| |done]. intros n Hn. by apply elem_of_nil in Hn.
  - inversion Hl as [|? ? Hn Hl']; subst. destruct (lookup_lt_is_Some_2 m n Hn) as [w E]. rewrite E. cbn [mbind option_bind].
    destruct (IH (<[n := 0]> m)) as (m' & E' & L & H1 & H2); [by rewrite insert_length|].
    exists m'. rewrite insert_length in L. split_and!; [done|done|..].
    + intros k Hk. destruct (decide (k ∈ l)) as [|Hk']; [auto|]. apply elem_of_cons in Hk as [->|]; [|done].
      rewrite H2 by done. by apply list_lookup_insert.
    + intros k Hk. apply not_elem_of_cons in Hk as [Hk1 Hk2]. rewrite H2 by done. by apply list_lookup_insert_ne.
Qed.
Lemma recycle_wp s sz p : pinv s sz [] p -> wp recycle p (fun _ p' => pinv s sz [] p').
Proof.
  intros I. pose proof (pi_len _ _ _ _ I) as Hl. pose proof (pi_size _ _ _ _ I) as Hs.
  pose proof (wf_size s (reachable_wf s (pi_reach _ _ _ _ I))) as Hpos. unfold recycle, wp.
  destruct (reset_vars_spec (sused p) (smap p)) as (m & E & L & H1 & H2).
  { apply Forall_forall. intros n Hn. apply (pi_used _ _ _ _ I) in Hn as [_ Hn]. apply (pi_dom _ _ _ _ I) in Hn. lia. }
  rewrite E. cbn [mbind option_bind]. destruct (lookup_lt_is_Some_2 m 0) as [w Ew]; [lia|]. rewrite Ew. cbn [mbind option_bind].
  apply fresh_inv; [apply I|done|rewrite insert_length; lia|apply list_lookup_insert; lia|].
  intros n v En Hn. rewrite list_lookup_insert_ne in En by done. destruct (decide (n ∈ sused p)) as [Hu|Hu].
  - rewrite H1 in En by done. by injection En as <-.
  - rewrite H2 in En by done. destruct (decide (v = 0)) as [|Hv]; [done|]. exfalso. apply Hu, (pi_used _ _ _ _ I). split; [done|by exists v].
Qed.
Lemma grow_inv s sz s' p : pinv s sz [] p -> later s s' -> size s' <= sz -> pinv s' sz [] p.
Proof.
  intros I Hl Hs. pose proof (reachable_wf s (pi_reach _ _ _ _ I)) as Hw. destruct (later_grows s s' Hw Hl) as [Hw' G].
  assert (Hr' : reachable s').
  { clear -I Hl. pose proof (pi_reach _ _ _ _ I) as Hr. clear I. induction Hl; [done|]. by eapply reach_step. }
  assert (Hdec : forall x n, enc p n -> dec s' p x n = dec s p x n).
  { intros x n Hn. pose proof (pi_dom _ _ _ _ I n Hn) as Hlt. unfold dec. f_equal. f_equal.
    pose proof (ext_grows_size s s' G).
    destruct (phase_defined s n (pi_reach _ _ _ _ I) Hlt) as [b Eb]. destruct (phase_defined s' n Hr' ltac:(lia)) as [b' Eb'].
    rewrite Eb, Eb'. cbn. rewrite (phase_exact s n b _ (pi_reach _ _ _ _ I) Eb (ev_valuation s _ Hw)).
    rewrite (phase_exact s' n b' _ Hr' Eb' (ev_valuation s' _ Hw')). by apply grows_ev. }
  assert (Hev : forall env n, enc p n -> ev s' env n = ev s env n).
  { intros env n Hn. apply grows_ev; [done|]. by apply (pi_dom _ _ _ _ I). }
  constructor; try apply I; try done.
  - intros n Hn. pose proof (ext_grows_size s s' G). pose proof (pi_dom _ _ _ _ I n Hn). lia.
  - intros env x Hx. apply (pi_sound _ _ _ _ I env). intros n Hn. rewrite <- Hdec, <- Hev by done. by apply Hx.
  - intros n Hn. by apply elem_of_nil in Hn.
  - intros n Hn Hg _ x env Hc Hb. rewrite Hdec, Hev by done. apply (pi_fix _ _ _ _ I n Hn); [|apply not_elem_of_nil|done|].
    + by apply (grows_gate s s' n G), Hg; apply (pi_dom _ _ _ _ I).
    + intros m Hm Hem. rewrite <- Hdec, <- Hev by done. by apply Hb.
Qed.

(* ---- models of the clauses ---- *)
Lemma dec_ci s sz fr p x n : pinv s sz fr p -> enc p n -> ~ is_gate s n ->
  dec s p x n = x (default 0 (smap p !! n)).
Proof.
  intros I He Hg. pose proof (pi_dom _ _ _ _ I n He) as Hn. pose proof (pi_reach _ _ _ _ I) as Hr. unfold dec.
  destruct (phase_defined s n Hr Hn) as [b Eb]. rewrite Eb. cbn.
  pose proof (ev_valuation s (fun _ => false) (reachable_wf s Hr)) as Hv.
  rewrite (phase_exact s n b _ Hr Eb Hv).
  assert (ev s (fun _ => false) n = false) as ->; [|by rewrite andb_false_r, xorb_false_r].
  destruct (decide (n = 0)) as [->|Hn0]; [apply Hv|].
  destruct (lookup_lt_is_Some_2 (ks s) n Hn) as [[a c] E]. destruct (decide (a = c)) as [->|Hac].
  - pose proof (wf_ci s (reachable_wf s Hr) n c E Hn0) as Hk. set (k := sdata c) in *. by rewrite (val_input _ _ _ Hv k n Hk).
  - exfalso. apply Hg. by exists a, c.
Qed.

Lemma models_exact s sz p x env : pinv s sz [] p -> cnf_sat x (scls p) ->
  (forall k n, ins s !! k = Some n -> enc p n -> dec s p x n = env k) ->
  forall n, enc p n -> dec s p x n = ev s env n.
Proof.
  intros I Hc Hin. pose proof (pi_reach _ _ _ _ I) as Hr. pose proof (ev_valuation s env (reachable_wf s Hr)) as Hv.
  intros n. induction (lt_wf n) as [n _ IH]. intros He.
  pose proof (pi_dom _ _ _ _ I n He) as Hn. destruct (decide (n = 0)) as [->|Hn0].
  - rewrite (dec_ci s sz [] p x 0 I He) by (intros (? & ? & _ & ? & _); done).
    rewrite (pi_zero _ _ _ _ I), (val_const _ _ _ Hv). cbn.
    pose proof (Hc _ (pi_const _ _ _ _ I)) as H1. apply clause_unit in H1. rewrite lit_val_make in H1. by destruct (x 1).
  - destruct (lookup_lt_is_Some_2 (ks s) n Hn) as [[a c] E]. destruct (decide (a = c)) as [->|Hac].
    + pose proof (wf_ci s (reachable_wf s Hr) n c E Hn0) as Hk. set (k := sdata c) in *. rewrite (val_input _ _ _ Hv k n Hk). by apply Hin.
    + apply (pi_fix _ _ _ _ I n He); [by exists a, c|apply not_elem_of_nil|done|auto].
Qed.

Lemma assignment_exists s sz p env : pinv s sz [] p -> exists x, forall n, enc p n -> dec s p x n = ev s env n.
Proof.
  intros I. exists (fun w => match list_find (fun w' => w' = w) (smap p) with Some (n, _) => polar ps s (ev s env) n | None => false end).
  intros n (w & E & Hw). unfold dec. rewrite E. cbn.
  destruct (list_find (fun w' => w' = w) (smap p)) as [[m w']|] eqn:Ef.
  - apply list_find_Some in Ef as (Em & -> & _). rewrite (pi_inj _ _ _ _ I m n w Em E Hw). unfold polar.
    by destruct (ev s env n), (polar_flip ps && _).
  - apply list_find_None in Ef. rewrite Forall_forall in Ef. exfalso. apply (Ef w); [|done]. by eapply elem_of_list_lookup_2.
Qed.

(* ---- one query ---- *)
Definition differ (s : aig) (v : nat -> bool) (r n : nat) : bool :=
  xorb (xorb (v r) (default false (ph s !! r))) (xorb (v n) (default false (ph s !! n))).

Lemma query_sound solve s sz p lits r p' : correct_oracle solve -> pinv s sz [] p ->
  query ps solve lits p = Some (r, p') ->
  pinv s sz [] p' /\ smap p' = smap p /\ scls p' = scls p /\
  match r with
  | Failure => forall env x, (forall n, enc p n -> dec s p x n = ev s env n) -> ~ Forall (fun l => lit_val x l = true) lits
  | Success m => forall env, (forall k n b, ins s !! k = Some n -> get_var_value p m n = Some b -> env k = b) ->
      exists x, (forall n, enc p n -> dec s p x n = ev s env n) /\ Forall (fun l => lit_val x l = true) lits
  | Timeout => True
  end.
Proof.
  intros Ho I. unfold query. destruct (forallb _ lits); [|done]. intros [= Hr <-].
  split; [constructor; apply I|]. split; [done|]. split; [done|]. destruct r as [m| |]; [|..|done].
  - intros env Henv. destruct (or_sat _ Ho _ _ _ _ Hr) as (Hlen & Hll & Hsat & Hlits).
    destruct (assignment_exists s sz p env I) as [x0 Hx0].
    exists (fun w => default (x0 w) (m !! w)).
    assert (Heq : forall i, i < length m -> nth i m false = default (x0 i) (m !! i)).
    { intros i Hi. destruct (lookup_lt_is_Some_2 m i Hi) as [b Eb]. rewrite Eb. cbn. by apply nth_lookup_Some. }
    split.
    + apply (models_exact s sz); [done| |].
      * eapply cnf_sat_ext; [|exact Hsat]. intros i Hi. apply Heq. lia.
      * intros k n Hk He. assert (Hg : ~ is_gate s n).
        { intros (a & b & E & ? & Hab). pose proof (wf_in s (reachable_wf s (pi_reach _ _ _ _ I)) k n Hk) as Hin.
          destruct Hin as (_ & Hin). rewrite E in Hin. by injection Hin as -> ->. }
        rewrite (dec_ci s sz [] p _ n I He Hg). destruct He as (w & E & Hw). rewrite E. cbn.
        destruct (m !! w) as [b|] eqn:Eb; cbn.
        -- symmetry. apply (Henv k n b Hk). unfold get_var_value. rewrite E. cbn. by destruct (decide (w = 0)).
        -- assert (He : enc p n) by by exists w.
           pose proof (Hx0 n He) as H. rewrite (dec_ci s sz [] p _ n I He Hg), E in H. cbn in H. rewrite H.
           by apply (val_input _ _ _ (ev_valuation s env (reachable_wf s (pi_reach _ _ _ _ I)))).
    + rewrite Forall_forall in Hlits, Hll |- *. intros l Hl. rewrite <- (Hlits l Hl). unfold lit_val. f_equal.
      symmetry. apply Heq. by apply Hll.
  - intros env x Hx. apply (or_unsat _ Ho _ _ _ Hr). by apply (pi_sound _ _ _ _ I env).
Qed.

Lemma dec_map s p p' x n : smap p' = smap p -> dec s p' x n = dec s p x n.
Proof. unfold dec. by intros ->. Qed.
Lemma enc_map p p' n : smap p' = smap p -> enc p' n <-> enc p n.
Proof. unfold enc. by intros ->. Qed.

Lemma prove_prepare solve s sz repr n p : pinv s sz [] p -> repr <> n -> repr < size s -> n < size s ->
  exists p2, sat_prove ps s solve repr n p = prove_tail ps s solve repr n p2 /\ pinv s sz [] p2 /\ enc p2 repr /\ enc p2 n.
Proof.
  intros I Hne Hrs Hns. unfold sat_prove. destruct (decide (repr = n)) as [|_]; [done|].
  set (p0 := Prover (svar p) (smap p) (sused p) (scls p) (S (scalls p)) (sq p)).
  assert (I0 : pinv s sz [] p0) by (constructor; apply I).
  assert (exists p1, (if decide (max_sat_var ps <> 0 /\ max_sat_var ps < svar p0 /\ calls_recycle ps < scalls p0)
     then recycle else ret tt) p0 = Some (tt, p1) /\ pinv s sz [] p1) as (p1 & E1 & I1).
  { destruct (decide _); [|by exists p0]. destruct (wp_elim _ _ _ (recycle_wp s sz p0 I0)) as ([] & p1 & E & I1). eauto. }
  destruct (wp_elim _ _ _ (cnf_node_wp s sz repr p1 I1 Hrs)) as ([] & p2 & E2 & I2 & G2 & En2).
  destruct (wp_elim _ _ _ (cnf_node_wp s sz n p2 I2 Hns)) as ([] & p3 & E3 & I3 & G3 & En3).
  exists p3. split; [|split; [done|split; [by eapply pgrows_enc|done]]].
  unfold bnd at 1. fold p0. unfold bnd at 1. cbn [get]. unfold bnd at 1. rewrite E1. unfold bnd at 1. rewrite E2.
  unfold bnd at 1. rewrite E3. reflexivity.
Qed.

Lemma sat_prove_spec solve s sz repr n p r p' : correct_oracle solve -> pinv s sz [] p -> repr < size s -> n < size s ->
  sat_prove ps s solve repr n p = Some (r, p') ->
  pinv s sz [] p' /\
  match r with
  | Failure => forall env, differ s (ev s env) repr n = false
  | Success m => forall env, (forall k i b, ins s !! k = Some i -> get_var_value p' m i = Some b -> env k = b) ->
      differ s (ev s env) repr n = true
  | Timeout => True
  end.
Proof.
  intros Ho I Hrs Hns H. assert (Hne : repr <> n).
  { intros ->. unfold sat_prove in H. by destruct (decide (n = n)). }
  pose proof (pi_reach _ _ _ _ I) as Hr.
  destruct (prove_prepare solve s sz repr n p I Hne Hrs Hns) as (p2 & E & I2 & Er & En). rewrite E in H. clear E I p.
  unfold prove_tail in H. unfold bnd at 1 in H. cbn [get] in H.
  destruct (phase_defined s repr Hr Hrs) as [pr Epr]. destruct (phase_defined s n Hr Hns) as [pn Epn].
  rewrite Epr, Epn in H. unfold bnd at 1 in H. cbn [lift] in H. unfold bnd at 1 in H. cbn [lift] in H.
  destruct (node_lit_some s p2 repr true Hr Hrs (enc_some _ _ Er)) as (a & Ea & _ & Va).
  destruct (node_lit_some s p2 n (xorb pr pn) Hr Hns (enc_some _ _ En)) as (b & Eb & _ & Vb).
  rewrite Ea, Eb in H. unfold bnd at 1 in H. cbn [lift] in H. unfold bnd at 1 in H. cbn [lift] in H.
  unfold bnd at 1 in H. destruct (query ps solve [a; b] p2) as [[r1 p3]|] eqn:Eq; [|done].
  destruct (query_sound solve s sz p2 [a; b] r1 p3 Ho I2 Eq) as (I3 & Hm3 & _ & Hr1).
  assert (Hdiff : forall env, differ s (ev s env) repr n = xorb (ev s env repr) (xorb (ev s env n) (xorb pr pn))).
  { intros env. unfold differ. rewrite Epr, Epn. cbn. by destruct (ev s env repr), (ev s env n), pr, pn. }
  destruct r1 as [m| |].
  - cbn [ret] in H. injection H as <- <-. split; [done|]. intros env Henv.
    destruct (Hr1 env) as (x & Hx & Hl).
    { intros k i c Hk Hg. apply (Henv k i c Hk). revert Hg. unfold get_var_value. by rewrite Hm3. }
    inversion Hl as [|? ? H1 Hl']; subst. inversion Hl' as [|? ? H2 _]; subst.
    rewrite Va, (Hx _ Er) in H1. rewrite Vb, (Hx _ En) in H2. rewrite Hdiff, H2. by destruct (ev s env repr).
  - assert (H1 : forall env, ev s env repr = true \/ ev s env n = xorb pr pn).
    { intros env. destruct (assignment_exists s sz p2 env I2) as [x Hx].
      destruct (ev s env repr) eqn:Ev; [by left|right]. destruct (decide (ev s env n = xorb pr pn)) as [|Hd]; [done|].
      exfalso. apply (Hr1 env x Hx). constructor; [|constructor; [|constructor]].
      - by rewrite Va, (Hx _ Er), Ev.
      - rewrite Vb, (Hx _ En). by destruct (ev s env n), pr, pn. }
    unfold bnd at 1 in H.
    assert (Hadd : wp (add_cls [[lit_not a; lit_not b]]) p3 (fun _ p' => pinv s sz [] p' /\ pgrows p3 p' /\ smap p' = smap p3 /\ svar p' = svar p3)).
    { apply (pinv_add_cls s sz [] p3 _ 0 []); [done|by intros m Hm; apply elem_of_nil in Hm|done| |by intros Hm; apply elem_of_nil in Hm].
      intros env x Hx c Hc. apply elem_of_list_singleton in Hc as ->.
      assert (Hx2 : forall n, enc p2 n -> dec s p2 x n = ev s env n).
      { intros i Hi. rewrite <- (dec_map s p2 p3) by done. apply Hx. by apply (enc_map p2). }
      destruct (H1 env) as [Hv|Hv]; [exists (lit_not a)|exists (lit_not b)].
      - split; [apply elem_of_cons; by left|]. by rewrite lit_val_not, Va, (Hx2 _ Er), Hv.
      - split; [apply elem_of_cons; right; by apply elem_of_list_singleton|]. rewrite lit_val_not, Vb, (Hx2 _ En), Hv. by destruct (xorb pr pn). }
    destruct (wp_elim _ _ _ Hadd) as ([] & p4 & E4 & I4 & _ & Hm4 & _). rewrite E4 in H. rewrite Hm3 in Hm4.
    destruct (decide (repr = 0)) as [->|Hr0].
    + cbn [ret] in H. injection H as <- <-. split; [done|]. intros env. rewrite Hdiff.
      destruct (H1 env) as [Hv|Hv]; [by rewrite (ev_const s env (reachable_wf s Hr)) in Hv|].
      rewrite (ev_const s env (reachable_wf s Hr)), Hv. by destruct (xorb pr pn).
    + destruct (node_lit_some s p2 repr false Hr Hrs (enc_some _ _ Er)) as (a' & Ea' & _ & Va').
      destruct (node_lit_some s p2 n (Bool.eqb pr pn) Hr Hns (enc_some _ _ En)) as (b' & Eb' & _ & Vb').
      rewrite Ea', Eb' in H. unfold bnd at 1 in H. cbn [lift] in H. unfold bnd at 1 in H. cbn [lift] in H.
      unfold bnd at 1 in H. destruct (query ps solve [a'; b'] p4) as [[r2 p5]|] eqn:Eq2; [|done].
      destruct (query_sound solve s sz p4 [a'; b'] r2 p5 Ho I4 Eq2) as (I5 & Hm5 & _ & Hr2). rewrite Hm4 in Hm5.
      assert (Er4 : enc p4 repr) by by apply (enc_map p2). assert (En4 : enc p4 n) by by apply (enc_map p2).
      destruct r2 as [m| |].
      * cbn [ret] in H. injection H as <- <-. split; [done|]. intros env Henv.
        destruct (Hr2 env) as (x & Hx & Hl).
        { intros k i c Hk Hg. apply (Henv k i c Hk). revert Hg. unfold get_var_value. by rewrite Hm5, Hm4. }
        inversion Hl as [|? ? Hl1 Hl']; subst. inversion Hl' as [|? ? Hl2 _]; subst.
        rewrite Va', <- (dec_map s p2 p4), (Hx _ Er4) in Hl1 by done. rewrite Vb', <- (dec_map s p2 p4), (Hx _ En4) in Hl2 by done.
        rewrite Hdiff. by destruct (ev s env repr), (ev s env n), pr, pn.
      * assert (H2 : forall env, ev s env repr = false \/ ev s env n = Bool.eqb pr pn).
        { intros env. destruct (assignment_exists s sz p4 env I4) as [x Hx].
          destruct (ev s env repr) eqn:Ev; [right|by left]. destruct (decide (ev s env n = Bool.eqb pr pn)) as [|Hd]; [done|].
          exfalso. apply (Hr2 env x Hx). constructor; [|constructor; [|constructor]].
          - by rewrite Va', <- (dec_map s p2 p4), (Hx _ Er4), Ev by done.
          - rewrite Vb', <- (dec_map s p2 p4), (Hx _ En4) by done. by destruct (ev s env n), pr, pn. }
        unfold bnd in H.
        assert (Hadd2 : wp (add_cls [[lit_not a'; lit_not b']]) p5 (fun _ p' => pinv s sz [] p' /\ pgrows p5 p' /\ smap p' = smap p5 /\ svar p' = svar p5)).
        { apply (pinv_add_cls s sz [] p5 _ 0 []); [done|by intros m Hm; apply elem_of_nil in Hm|done| |by intros Hm; apply elem_of_nil in Hm].
          intros env x Hx c Hc. apply elem_of_list_singleton in Hc as ->.
          assert (Hx2 : forall n, enc p2 n -> dec s p2 x n = ev s env n).
          { intros i Hi. rewrite <- (dec_map s p2 p5) by done. apply Hx. by apply (enc_map p2). }
          destruct (H2 env) as [Hv|Hv]; [exists (lit_not a')|exists (lit_not b')].
          - split; [apply elem_of_cons; by left|]. by rewrite lit_val_not, Va', (Hx2 _ Er), Hv.
          - split; [apply elem_of_cons; right; by apply elem_of_list_singleton|]. rewrite lit_val_not, Vb', (Hx2 _ En), Hv. by destruct (Bool.eqb pr pn). }
        destruct (wp_elim _ _ _ Hadd2) as ([] & p6 & E6 & I6 & _). rewrite E6 in H. cbn [ret] in H. injection H as <- <-.
        split; [done|]. intros env. rewrite Hdiff. destruct (H1 env) as [Hv1|Hv1], (H2 env) as [Hv2|Hv2].
        -- congruence.
        -- rewrite Hv1, Hv2. by destruct pr, pn.
        -- rewrite Hv1, Hv2. by destruct (xorb pr pn).
        -- destruct pr, pn; cbn in Hv1, Hv2; congruence.
      * cbn [ret] in H. injection H as <- <-. done.
  - cbn [ret] in H. injection H as <- <-. done.
Qed.

(* below [init_vars] variables no query is about an unknown variable *)
Lemma query_total solve s sz p lits : pinv s sz [] p -> size s < init_vars ps ->
  Forall (fun l => exists n, smap p !! n = Some (lit_var l)) lits -> is_Some (query ps solve lits p).
Proof.
  intros I Hs Hl. unfold query.
  assert (forallb (fun l => bool_decide (lit_var l < Nat.max (init_vars ps) (nvars (scls p)))) lits = true) as ->; [|eauto].
  apply forallb_forall. intros l Hin. apply elem_of_list_In in Hin. rewrite Forall_forall in Hl. destruct (Hl l Hin) as (n & E).
  apply bool_decide_eq_true. pose proof (pi_lt _ _ _ _ I _ _ E). pose proof (pinv_svar _ _ _ _ I). lia.
Qed.

Lemma sat_prove_total solve s sz repr n p : pinv s sz [] p -> repr <> n -> repr < size s -> n < size s -> size s < init_vars ps ->
  is_Some (sat_prove ps s solve repr n p).
Proof.
  intros I Hne Hrs Hns Hsz. pose proof (pi_reach _ _ _ _ I) as Hr.
  destruct (prove_prepare solve s sz repr n p I Hne Hrs Hns) as (p2 & E & I2 & Er & En). rewrite E. clear E I p.
  unfold prove_tail. unfold bnd at 1. cbn [get].
  destruct (phase_defined s repr Hr Hrs) as [pr Epr]. destruct (phase_defined s n Hr Hns) as [pn Epn].
  rewrite Epr, Epn. unfold bnd at 1. cbn [lift]. unfold bnd at 1. cbn [lift].
  destruct (node_lit_some s p2 repr true Hr Hrs (enc_some _ _ Er)) as (a & Ea & Ma & _).
  destruct (node_lit_some s p2 n (xorb pr pn) Hr Hns (enc_some _ _ En)) as (b & Eb & Mb & _).
  rewrite Ea, Eb. unfold bnd at 1. cbn [lift]. unfold bnd at 1. cbn [lift].
  destruct (query_total solve s sz p2 [a; b] I2 Hsz) as [[r1 p3] Eq].
  { constructor; [by exists repr|]. constructor; [by exists n|constructor]. }
  unfold bnd at 1. rewrite Eq. destruct r1 as [m| |]; [by eexists| |by eexists].
  unfold bnd at 1. cbn [add_cls]. destruct (decide (repr = 0)); [by eexists|].
  destruct (node_lit_some s p2 repr false Hr Hrs (enc_some _ _ Er)) as (a' & Ea' & Ma' & _).
  destruct (node_lit_some s p2 n (Bool.eqb pr pn) Hr Hns (enc_some _ _ En)) as (b' & Eb' & Mb' & _).
  rewrite Ea', Eb'. unfold bnd at 1. cbn [lift]. unfold bnd at 1. cbn [lift].
  set (p4 := Prover _ _ _ _ _ _).
  assert (exists r2 p5, query ps solve [a'; b'] p4 = Some (r2, p5)) as (r2 & p5 & Eq2).
  { unfold query. cbn [p4 scls]. unfold query in Eq.
    assert (p3 = Prover (svar p2) (smap p2) (sused p2) (scls p2) (scalls p2) (S (sq p2))) as -> by (destruct (forallb _ _); congruence).
    cbn [scls]. assert (forallb (fun l => bool_decide (lit_var l < Nat.max (init_vars ps) (nvars (scls p2 ++ [[lit_not a; lit_not b]])))) [a'; b'] = true) as ->; [|eauto].
    pose proof (pi_lt _ _ _ _ I2 _ _ Ma'). pose proof (pi_lt _ _ _ _ I2 _ _ Mb'). pose proof (pinv_svar _ _ _ _ I2).
    cbn [forallb]. rewrite !bool_decide_true by lia. done. }
  unfold bnd at 1. rewrite Eq2. destruct r2; [by eexists| |by eexists]. unfold bnd. cbn [add_cls]. by eexists.
Qed.

Lemma phist_inv solve sz s p : correct_oracle solve -> phist ps solve sz s p -> pinv s sz [] p.
Proof.
  intros Ho. induction 1 as [s p Hr Hs E|s p s' _ IH Hl Hs|s p repr n r p' _ IH Hrs Hns H].
  - by apply init_inv.
  - by apply (grow_inv s).
  - by apply (sat_prove_spec solve s sz repr n p r p').
Qed.
End prover.
