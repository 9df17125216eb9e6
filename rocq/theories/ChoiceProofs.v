(* Lemmas about networks with choices. *)
From Verif Require Import Base Aig AigSem AigHash AigProofs AigApi Choice.

(* ---- multiplexers ---- *)
Lemma is_and_gate s n b : is_and s n = Some b -> (b = true <-> is_gate s n).
Proof.
  unfold is_and, is_ci. destruct (ks s !! n) as [[x y]|] eqn:E; [|done]. cbn. intros [= <-].
  rewrite andb_true_iff, negb_true_iff, bool_decide_eq_true, bool_decide_eq_false. split.
  - intros [? ?]. exists x, y. repeat split; [done|lia|done].
  - intros (x' & y' & E' & ? & ?). rewrite E' in E. injection E as -> ->. split; [lia|done].
Qed.

Lemma snot_sval v f g : f = snot g -> sval v f = negb (sval v g).
Proof. intros ->. apply sval_snot. Qed.

Lemma mux_inv s n : is_mux s n = Some true ->
  exists x0 x1 k0 k1, ks s !! n = Some (Sig x0 true, Sig x1 true) /\ is_gate s n /\
    ks s !! x0 = Some k0 /\ ks s !! x1 = Some k1 /\ is_gate s x0 /\ is_gate s x1 /\
    (k0.1 = snot k1.1 \/ k0.1 = snot k1.2 \/ k0.2 = snot k1.1 \/ k0.2 = snot k1.2).
Proof.
  unfold is_mux. destruct (is_and s n) as [a|] eqn:Ea; [|done]. cbn. destruct a; [|done]. cbn.
  apply is_and_gate in Ea as [Ea _]. destruct (ks s !! n) as [[[x0 c0] [x1 c1]]|] eqn:E; [|done]. cbn.
  destruct c0, c1; cbn; try done.
  destruct (is_and s x0) as [a0|] eqn:E0; [|done]. cbn. destruct a0; [|done]. cbn.
  destruct (is_and s x1) as [a1|] eqn:E1; [|done]. cbn. destruct a1; [|done]. cbn.
  apply is_and_gate in E0 as [E0 _]. apply is_and_gate in E1 as [E1 _].
  destruct (ks s !! x0) as [k0|] eqn:K0; [|done]. destruct (ks s !! x1) as [k1|] eqn:K1; [|done]. cbn.
  intros [= H]. rewrite !orb_true_iff, !bool_decide_eq_true in H. exists x0, x1, k0, k1.
  repeat (split; [by auto|]). tauto.
Qed.

Lemma gate_val s env v n a b : valuation s env v -> is_gate s n -> ks s !! n = Some (a, b) ->
  v n = sval v a && sval v b.
Proof.
  intros Hv (a' & b' & E & ? & ?) E'. rewrite E in E'. injection E' as -> ->. by eapply val_gate.
Qed.

(* the operands of the recognised multiplexer are fanins of the fanins *)
Definition grandchild (s : aig) (n : nat) (f : signal) : Prop :=
  exists a b x y, ks s !! n = Some (a, b) /\
    (ks s !! sidx a = Some (x, y) \/ ks s !! sidx b = Some (x, y)) /\ (sidx f = sidx x \/ sidx f = sidx y).

Lemma recognize_mux_total s n : is_mux s n = Some true ->
  exists i t e, recognize_mux s n = Some (i, t, e) /\ scompl i = false /\
    (forall env v, valuation s env v -> v n = if sval v i then sval v t else sval v e) /\
    grandchild s n i /\ grandchild s n t /\ grandchild s n e.
Proof.
  intros Hm. destruct (mux_inv s n Hm) as (x0 & x1 & [c00 c01] & [c10 c11] & E & Hg & K0 & K1 & G0 & G1 & Hc).
  unfold recognize_mux. rewrite Hm. cbn. rewrite E. cbn. rewrite K0, K1. cbn. cbn in Hc.
  assert (Hn : forall env v, valuation s env v ->
    v n = negb (sval v c00 && sval v c01) && negb (sval v c10 && sval v c11)).
  { intros env v Hv. rewrite (gate_val s env v n _ _ Hv Hg E). unfold sval at 1 2. cbn.
    rewrite (gate_val s env v x0 _ _ Hv G0 K0), (gate_val s env v x1 _ _ Hv G1 K1). by rewrite !xorb_true_r. }
  assert (Hgc : forall f, sidx f = sidx c00 \/ sidx f = sidx c01 \/ sidx f = sidx c10 \/ sidx f = sidx c11 -> grandchild s n f).
  { intros f H. destruct H as [H|[H|[H|H]]].
    - exists (Sig x0 true), (Sig x1 true), c00, c01. cbn. auto.
    - exists (Sig x0 true), (Sig x1 true), c00, c01. cbn. auto.
    - exists (Sig x0 true), (Sig x1 true), c10, c11. cbn. auto.
    - exists (Sig x0 true), (Sig x1 true), c10, c11. cbn. auto. }
  Local Ltac mx Hd Hs Hn Hgc :=
    eexists _, _, _; split; [reflexivity|]; split; [first [done|rewrite Hd in Hs; cbn in Hs; by destruct (scompl _)]|]; split;
     [let env := fresh in let v := fresh "v" in let Hv := fresh in
      intros env v Hv; rewrite (Hn env v Hv), !sval_snot; rewrite (snot_sval v _ _ Hd);
      repeat match goal with |- context [sval v ?f] => destruct (sval v f) end; reflexivity
     |repeat split; apply Hgc; cbn; tauto].
  destruct (decide (c01 = snot c11)) as [Hd|Hd1]; [destruct (scompl c01) eqn:Hs; mx Hd Hs Hn Hgc|].
  destruct (decide (c00 = snot c10)) as [Hd|Hd2]; [destruct (scompl c00) eqn:Hs; mx Hd Hs Hn Hgc|].
  destruct (decide (c00 = snot c11)) as [Hd|Hd3]; [destruct (scompl c00) eqn:Hs; mx Hd Hs Hn Hgc|].
  destruct (decide (c01 = snot c10)) as [Hd|Hd4]; [destruct (scompl c01) eqn:Hs; mx Hd Hs Hn Hgc|].
  exfalso. tauto.
Qed.

(* ---- graphs ---- *)
Lemma tc_rtc_r (R : nat -> nat -> Prop) x y z : tc R x y -> rtc R y z -> tc R x z.
Proof. intros H1 H2. induction H2 as [|y y' z Hy _ IH]; [done|]. apply IH. eapply tc_r; done. Qed.

Lemma acyclic_add (R R' : nat -> nat -> Prop) t n : acyclic R ->
  (forall x y, R' x y -> R x y \/ (x = t /\ y = n)) -> ~ rtc R n t -> acyclic R'.
Proof.
  intros Ha Hr Hn.
  assert (G : forall x y, tc R' x y -> tc R x y \/ (rtc R x t /\ rtc R n y)).
  { intros x y H. induction H as [x y H|x y z H _ IH].
    - apply Hr in H as [H|[-> ->]]; [left; by apply tc_once|right; split; done].
    - apply Hr in H as [H|[-> ->]].
      + destruct IH as [IH|[IH1 IH2]]; [left; by eapply tc_l|right; split; [by eapply rtc_l|done]].
      + right. split; [done|]. destruct IH as [IH|[IH1 IH2]]; [by apply tc_rtc|done]. }
  intros x Hx. apply G in Hx as [Hx|[H1 H2]]; [by eapply Ha|]. apply Hn. by etrans.
Qed.

Lemma acyclic_sub (R R' : nat -> nat -> Prop) : acyclic R -> (forall x y, R' x y -> R x y) -> acyclic R'.
Proof.
  intros Ha H. assert (G : forall x y, tc R' x y -> tc R x y).
  { intros x y Hp. induction Hp; [by apply tc_once, H|eapply tc_l; [by apply H|done]]. }
  intros x Hx. by apply (Ha x), G.
Qed.

(* ---- the traversal ---- *)
Lemma upd_eq f n v : upd f n v n = v.
Proof. unfold upd. by rewrite decide_True. Qed.
Lemma upd_ne f n v m : m <> n -> upd f n v m = f m.
Proof. intros. unfold upd. by rewrite decide_False. Qed.

(* node m was handled: it is no AND node or has been visited *)
Definition handled (c : cnet) (tid : nat) (vis : nat -> nat) (m : nat) : Prop :=
  is_gate (cb c) m -> vis m = tid.

Lemma cb_const c : reachable (cb c) -> ks (cb c) !! 0 = Some (Sig 0 false, Sig 0 false).
Proof. intros H. by apply reachable_wf, wf_const in H. Qed.

Lemma is_ci_false s n : reachable s -> is_ci s n = Some false <-> is_gate s n.
Proof.
  intros Hr. unfold is_ci. split.
  - destruct (ks s !! n) as [[x y]|] eqn:E; [|done]. cbn. intros [= H%bool_decide_eq_false].
    exists x, y. repeat split; [done| |done]. intros ->.
    apply reachable_wf, wf_const in Hr. rewrite Hr in E. by injection E as <- <-.
  - intros (x & y & E & ? & ?). rewrite E. cbn. by rewrite bool_decide_eq_false_2.
Qed.

Lemma check_rec_post c val tid fuel : reachable (cb c) -> forall n vis b vis',
  check_tfi_rec fuel c val tid n vis = Some (b, vis') ->
  (forall m, vis m = tid -> vis' m = tid) /\
  (forall m, vis' m <> tid -> vis' m = vis m) /\
  (b = true -> exists x m, n = Some x /\ rtc (cedge c) x m /\ is_gate (cb c) m /\ val m = 1) /\
  (b = false ->
     (forall x, n = Some x -> handled c tid vis' x) /\
     (forall m, vis m <> tid -> vis' m = tid -> is_gate (cb c) m /\ val m <> 1 /\
        (forall k, cedge c m k -> handled c tid vis' k))).
Proof.
  intros Hr. induction fuel as [|fuel IH]; [done|]. intros n vis b vis'. cbn [check_tfi_rec].
  destruct n as [n|].
  2:{ intros [= <- <-]. repeat split; try done; intros; by auto. }
  destruct (is_ci (cb c) n) as [ci|] eqn:Eci; [|done]. cbn [mbind option_bind].
  destruct ci.
  { intros [= <- <-]. split; [done|]. split; [done|]. split; [done|]. intros _. split; [|by intros].
    intros x [= <-] Hg. apply is_ci_false in Hg; [|done]. congruence. }
  pose proof (proj1 (is_ci_false _ n Hr) Eci) as Hg.
  destruct (decide (val n = 1)) as [Hv|Hv].
  { intros [= <- <-]. split; [done|]. split; [done|]. split; [|done]. intros _. exists n, n. done. }
  destruct (decide (vis n = tid)) as [Ht|Ht].
  { intros [= <- <-]. split; [done|]. split; [done|]. split; [done|]. intros _. split; [|by intros].
    intros x [= <-]. by intros _. }
  destruct (ks (cb c) !! n) as [[ka kb]|] eqn:Ek; [|done]. cbn [mbind option_bind fst snd].
  assert (Hf : forall m, fanin (cb c) n m <-> m = sidx ka \/ m = sidx kb).
  { intros m. split.
    - intros (x & y & E & _ & _ & Hm). rewrite E in Ek. by injection Ek as -> ->.
    - intros Hm. destruct Hg as (x & y & E & ? & ?). rewrite E in Ek. injection Ek as -> ->. by exists ka, kb. }
  destruct (check_tfi_rec fuel c val tid (Some (sidx ka)) (upd vis n tid)) as [[r0 vis1]|] eqn:E0; [|done]. cbn.
  destruct (IH _ _ _ _ E0) as (A1 & A2 & A3 & A4).
  assert (Hn1 : vis1 n = tid) by (apply A1, upd_eq).
  assert (Hback1 : forall m, vis1 m <> tid -> vis1 m = vis m).
  { intros m Hm. rewrite (A2 m Hm). apply upd_ne. by intros ->. }
  assert (Hfw1 : forall m, vis m = tid -> vis1 m = tid).
  { intros m Hm. apply A1. destruct (decide (m = n)) as [->|]; [apply upd_eq|by rewrite upd_ne]. }
  destruct r0.
  { intros [= <- <-]. split; [done|]. split; [done|]. split; [|done]. intros _.
    destruct (A3 eq_refl) as (x & m & [= <-] & Hp & ? & ?). exists n, m. split; [done|]. split; [|done].
    eapply rtc_l; [|exact Hp]. left. apply Hf. by left. }
  destruct (A4 eq_refl) as [A5 A6]. clear A3 A4.
  destruct (check_tfi_rec fuel c val tid (Some (sidx kb)) vis1) as [[r1 vis2]|] eqn:E1; [|done]. cbn.
  destruct (IH _ _ _ _ E1) as (B1 & B2 & B3 & B4).
  destruct r1.
  { intros [= <- <-]. split; [by auto|]. split.
    { intros m Hm. rewrite (B2 m Hm). apply Hback1. intros Hm'. by apply Hm, B1. }
    split; [|done]. intros _.
    destruct (B3 eq_refl) as (x & m & [= <-] & Hp & ? & ?). exists n, m. split; [done|]. split; [|done].
    eapply rtc_l; [|exact Hp]. left. apply Hf. by right. }
  destruct (B4 eq_refl) as [B5 B6]. clear B3 B4.
  destruct (equivs c !! n) as [e|] eqn:Ee; [|done]. cbn. intros E2.
  destruct (IH _ _ _ _ E2) as (C1 & C2 & C3 & C4).
  split; [by auto|]. split.
  { intros m Hm. rewrite (C2 m Hm). assert (vis2 m <> tid) as H2 by (intros H2; by apply Hm, C1).
    rewrite (B2 m H2). apply Hback1. intros Hm'. by apply H2, B1. }
  split.
  { intros ->. destruct (C3 eq_refl) as (x & m & -> & Hp & ? & ?). exists n, m. split; [done|]. split; [|done].
    eapply rtc_l; [|exact Hp]. right. done. }
  intros ->. destruct (C4 eq_refl) as [C5 C6]. split.
  { intros x [= <-]. intros _. by apply C1, B1. }
  intros m Hm Hm'.
  destruct (decide (m = n)) as [->|Hmn].
  { split; [done|]. split; [done|]. intros k Hk Hgk. destruct Hk as [Hk|[_ Hk]].
    - apply Hf in Hk as [->| ->]; [by apply C1, B1, (A5 _ eq_refl)|by apply C1, (B5 _ eq_refl)].
    - unfold link in Hk. rewrite Ee in Hk. injection Hk as ->. by apply (C5 _ eq_refl). }
  destruct (decide (vis1 m = tid)) as [H1|H1].
  { destruct (A6 m) as (? & ? & Hk); [by rewrite upd_ne|done|]. split; [done|]. split; [done|].
    intros k Hck Hgk. by apply C1, B1, Hk. }
  destruct (decide (vis2 m = tid)) as [H2|H2].
  { destruct (B6 m) as (? & ? & Hk); [done|done|]. split; [done|]. split; [done|].
    intros k Hck Hgk. by apply C1, Hk. }
  by apply C6.
Qed.

(* a negative answer of a fresh traversal: no marked gate is reachable *)
Lemma check_rec_sound c val tid fuel n vis vis' : reachable (cb c) ->
  check_tfi_rec fuel c val tid (Some n) vis = Some (false, vis') ->
  (forall m, vis m <> tid) ->
  forall m, rtc (cedge c) n m -> is_gate (cb c) m -> val m <> 1.
Proof.
  intros Hr E Hv. destruct (check_rec_post c val tid fuel Hr _ _ _ _ E) as (_ & _ & _ & H).
  destruct (H eq_refl) as [H1 H2].
  assert (G : forall x m, rtc (cedge c) x m -> handled c tid vis' x -> handled c tid vis' m).
  { intros x m Hp. induction Hp as [|x y z Hxy _ IH]; [done|]. intros Hx. apply IH.
    assert (is_gate (cb c) x) as Hg by (destruct Hxy as [(a & b & ? & ? & ? & _)|[? _]]; [by exists a, b|done]).
    destruct (H2 x (Hv x) (Hx Hg)) as (_ & _ & Hk). by apply Hk. }
  intros m Hp Hg. apply (H2 m (Hv m)). by apply (G n m Hp (H1 _ eq_refl)).
Qed.

(* ---- classes ---- *)
Lemma mark_class_spec fuel c v : forall tmp val val', mark_class fuel c v tmp val = Some val' ->
  forall m, val' m = val m \/ (val' m = v /\ exists x, tmp = Some x /\ rtc (link c) x m).
Proof.
  induction fuel as [|fuel IH]; [done|]. intros tmp val val'. cbn [mark_class]. destruct tmp as [n|].
  2:{ intros [= <-]. by left. }
  destruct (ks (cb c) !! n); [|done]. cbn. destruct (equivs c !! n) as [e|] eqn:Ee; [|done]. cbn.
  intros H m. destruct (IH _ _ _ H m) as [Hm|[Hm (x & -> & Hp)]].
  - destruct (decide (m = n)) as [->|]; [|left; by rewrite Hm, upd_ne].
    right. rewrite upd_eq in Hm. split; [done|]. by exists n.
  - right. split; [done|]. exists n. split; [done|]. by eapply rtc_l.
Qed.

Lemma mark_class_member fuel c v : forall tmp val val', mark_class fuel c v tmp val = Some val' ->
  (forall m, val m = v -> val' m = v) /\
  forall x m, tmp = Some x -> rtc (link c) x m -> val' m = v.
Proof.
  induction fuel as [|fuel IH]; [done|]. intros tmp val val'. cbn [mark_class]. destruct tmp as [n|].
  2:{ intros [= <-]. done. }
  destruct (ks (cb c) !! n); [|done]. cbn. destruct (equivs c !! n) as [e|] eqn:Ee; [|done]. cbn.
  intros H. destruct (IH _ _ _ H) as [H1 H2]. split.
  - intros m Hm. apply H1. destruct (decide (m = n)) as [->|]; [apply upd_eq|by rewrite upd_ne].
  - intros x m [= <-] Hp. apply rtc_inv in Hp as [->|(y & Hl & Hp)].
    + apply H1, upd_eq.
    + unfold link in Hl. rewrite Ee in Hl. injection Hl as ->. by eapply H2.
Qed.

Lemma class_tail_spec fuel c : forall r t, class_tail fuel c r = Some t ->
  rtc (link c) r t /\ equivs c !! t = Some None.
Proof.
  induction fuel as [|fuel IH]; [done|]. intros r t. cbn [class_tail].
  destruct (equivs c !! r) as [e|] eqn:Ee; [|done]. cbn. destruct e as [n|].
  - intros H. destruct (IH _ _ H). split; [|done]. by eapply rtc_l.
  - intros [= <-]. done.
Qed.

(* chains are finite *)
Lemma chain_total (c : cnet) (N : nat) (P : nat -> Prop) :
  acyclic (link c) -> (forall n m, P n -> link c n m -> P m) -> (forall n, P n -> n < N /\ is_Some (equivs c !! n)) ->
  forall n, P n -> exists L, rtc (link c) n n /\ NoDup L /\ (forall m, m ∈ L -> m < N) /\ (forall m, m ∈ L <-> rtc (link c) n m) /\ L !! 0 = Some n.
Proof.
  intros Ha Hc Hn. 
  assert (G : forall k n V, P n -> NoDup V -> (forall m, m ∈ V -> m < N /\ tc (link c) m n) -> N <= length V + k ->
    exists L, NoDup L /\ (forall m, m ∈ L -> m < N) /\ (forall m, m ∈ L <-> rtc (link c) n m) /\ L !! 0 = Some n).
  { induction k as [|k IH]; intros n V HP HV Hm Hk.
    - exfalso. assert (Hd : NoDup (n :: V)).
      { apply NoDup_cons. split; [|done]. intros Hin. by apply (Ha n), Hm. }
      assert (length (n :: V) <= length (seq 0 N)).
      { apply NoDup_incl_length; [by apply NoDup_ListNoDup|]. intros x Hx%elem_of_list_In. apply in_seq.
        apply elem_of_cons in Hx as [->|Hx]; [|apply Hm in Hx]; [apply Hn in HP; lia|lia]. }
      rewrite seq_length in H. cbn in H. lia.
    - destruct (Hn n HP) as [Hlt [e He]]. destruct e as [y|].
      + destruct (IH y (n :: V)) as (L & L1 & L2 & L3 & L4).
        * eapply Hc; done.
        * apply NoDup_cons. split; [|done]. intros Hin. by apply (Ha n), Hm.
        * intros m [->|Hin]%elem_of_cons; [split; [done|by apply tc_once]|].
          split; [by apply Hm|]. eapply tc_r; [by apply Hm|done].
        * cbn. lia.
        * exists (n :: L). split; [|split; [|split; [|done]]].
          -- apply NoDup_cons. split; [|done]. rewrite L3. intros Hp. apply (Ha n). eapply tc_rtc_r; [by apply tc_once|done].
          -- intros m [->|?]%elem_of_cons; [done|by apply L2].
          -- intros m. rewrite elem_of_cons, L3. split.
             ++ intros [->|Hp]; [done|by eapply rtc_l].
             ++ intros Hp. apply rtc_inv in Hp as [->|(y' & Hl & Hp)]; [by left|]. unfold link in Hl. rewrite He in Hl.
                injection Hl as <-. by right.
      + exists [n]. split; [|split; [|split; [|done]]].
        * apply NoDup_singleton.
        * by intros m ->%elem_of_list_singleton.
        * intros m. rewrite elem_of_list_singleton. split; [by intros ->|].
          intros Hp. apply rtc_inv in Hp as [->|(y' & Hl & Hp)]; [done|]. unfold link in Hl. by rewrite He in Hl. }
  intros n HP. destruct (G N n [] HP) as (L & ?); [constructor|by intros m ?%elem_of_nil|cbn; lia|]. by exists L.
Qed.

(* ---- invariant of the histories ---- *)
Record cinv (c : cnet) : Prop := {
  ci_reach : reachable (cb c);
  ci_acyclic : acyclic (cedge c);
  ci_links : acyclic (link c);
  ci_bound : forall n m, link c n m -> n < size (cb c) /\ m < size (cb c);
  ci_vis : forall n, cvis c n <= ctrav c;
  ci_val : forall n, cval c n = 0;
  ci_len : length (reprs c) = length (equivs c);
  ci_repr : forall n r, reprs c !! n = Some r -> r <= n;
  ci_head : forall n m, link c n m -> exists r, reprs c !! m = Some r /\ r < m
}.

Lemma acyclic_none (R : nat -> nat -> Prop) : (forall x y, ~ R x y) -> acyclic R.
Proof. intros H x Hx. inversion Hx; by eapply H. Qed.

Lemma fanin_less s n m : reachable s -> fanin s n m -> m < n.
Proof.
  intros Hr (a & b & E & ? & Hab & Hm). destruct (topological s n a b Hr E Hab) as [? ?]. destruct Hm; subst; lia.
Qed.

Lemma cinv_init s sz : reachable s -> cinv (cnet_of s sz).
Proof.
  intros Hr.
  assert (Hl : forall x y, ~ link (cnet_of s sz) x y).
  { intros x y Hl. unfold link in Hl. cbn in Hl.
    apply elem_of_list_lookup_2 in Hl. unfold init_equivs in Hl. apply elem_of_list_In, repeat_spec in Hl. done. }
  split; cbn; try done.
  - apply (acyclic_sub (fun n m => m < n)).
    + intros x Hx. assert (G : forall a b, tc (fun n m => m < n) a b -> b < a) by (induction 1; lia). apply G in Hx. lia.
    + intros x y [Hf|[_ Hf]]; [by eapply fanin_less|by apply Hl in Hf].
  - by apply acyclic_none.
  - intros n m Hn. by apply Hl in Hn.
  - unfold init_reprs, init_equivs. by rewrite seq_length, repeat_length.
  - intros n r E. unfold init_reprs in E. apply lookup_seq in E as [-> _]. lia.
  - intros n m Hn. by apply Hl in Hn.
Qed.

Lemma ext_grows_size s s' : grows s s' -> size s <= size s'.
Proof. intros [[t Ht] _ _]. unfold size. rewrite Ht, app_length. lia. Qed.
Lemma grows_gate s s' n : grows s s' -> n < size s -> is_gate s' n <-> is_gate s n.
Proof.
  intros [[t Ht] _ _] Hn. unfold is_gate. rewrite Ht. by rewrite lookup_app_l.
Qed.
Lemma grows_fanin s s' n m : grows s s' -> n < size s -> fanin s' n m <-> fanin s n m.
Proof. intros [[t Ht] _ _] Hn. unfold fanin. rewrite Ht. by rewrite lookup_app_l. Qed.

Lemma cinv_step c o f c' : cinv c -> Forall (valid (cb c)) (operands o) ->
  base_op (step o) c = Some (f, c') -> cinv c'.
Proof.
  intros Hi Ho. unfold base_op. destruct (step o (cb c)) as [[r s']|] eqn:E; [|done]. intros [= <- <-].
  pose proof (ci_reach c Hi) as Hr. assert (Hr' : reachable s') by (by econstructor).
  assert (Hg : grows (cb c) s').
  { destruct (later_grows (cb c) s') as [_ ?]; [by apply reachable_wf|by econstructor; [constructor|..]|done]. }
  set (c' := Cnet s' _ _ _ _ _). assert (Hls : forall n m, link c' n m <-> link c n m) by done.
  split; cbn; try apply Hi; [done| |].
  - assert (Hce : forall n m, n < size (cb c) -> cedge c' n m -> cedge c n m /\ m < size (cb c)).
    { intros n m Hn [Hf|[Hgt Hl]].
      - apply (grows_fanin _ _ _ _ Hg Hn) in Hf. split; [by left|]. apply fanin_less in Hf; [lia|done].
      - apply (grows_gate _ _ _ Hg Hn) in Hgt. split; [by right|]. by apply (ci_bound c Hi n m). }
    assert (Hold : forall n m, tc (cedge c') n m -> n < size (cb c) -> tc (cedge c) n m).
    { intros n m Hp. induction Hp as [n m H|n m k H _ IH]; intros Hn.
      - by apply tc_once, Hce.
      - destruct (Hce n m Hn H). eapply tc_l; [done|]. by apply IH. }
    assert (Hnew : forall n m, tc (cedge c') n m -> size (cb c) <= n -> m < n).
    { intros n m Hp. induction Hp as [n m H|n m k H Hp IH]; intros Hn.
      - destruct H as [H|[_ H]]; [by eapply fanin_less|]. apply (ci_bound c Hi) in H. lia.
      - assert (m < n) as Hmn.
        { destruct H as [H|[_ H]]; [by eapply fanin_less|]. apply (ci_bound c Hi) in H. lia. }
        destruct (decide (size (cb c) <= m)); [specialize (IH ltac:(done)); lia|].
        assert (Hk : forall a b, tc (cedge c') a b -> a < size (cb c) -> b < size (cb c)).
        { intros a b Hab. induction Hab as [a b Hab|a b d Hab _ IH']; intros Ha; [by eapply Hce|].
          apply IH'. by eapply (Hce a b Ha). }
        specialize (Hk m k Hp ltac:(lia)). lia. }
    intros n Hn. destruct (decide (n < size (cb c))).
    + by apply (ci_acyclic c Hi n), Hold.
    + apply Hnew in Hn; lia.
  - intros n m Hl. apply (ci_bound c Hi) in Hl as [? ?]. apply ext_grows_size in Hg. lia.
Qed.

(* ---- set_choice ---- *)
Lemma check_tfi_inv n r c b c1 : cinv c -> check_tfi n r c = Some (b, c1) ->
  cb c1 = cb c /\ equivs c1 = equivs c /\ reprs c1 = reprs c /\ ctrav c1 = S (ctrav c) /\
  (forall m, cval c1 m = 0) /\ (forall m, cvis c1 m <= ctrav c1) /\ n < size (cb c) /\
  (b = true -> exists m, is_gate (cb c) m /\ rtc (link c) r m /\ rtc (cedge c) n m) /\
  (b = false -> forall m, is_gate (cb c) m -> rtc (link c) r m -> ~ rtc (cedge c) n m).
Proof.
  intros Hi. unfold check_tfi.
  destruct (mark_class _ c 1 (Some r) (cval c)) as [val|] eqn:E1; [|done]. cbn [mbind option_bind].
  destruct (check_tfi_rec _ c val _ (Some n) (cvis c)) as [[b' vis]|] eqn:E2; [|done]. cbn [mbind option_bind].
  destruct (mark_class _ c 0 (Some r) val) as [val'|] eqn:E3; [|done]. cbn [mbind option_bind].
  intros [= <- <-]. cbn [cb equivs reprs ctrav cval cvis].
  split; [done|]. split; [done|]. split; [done|]. split; [done|].
  destruct (mark_class_member _ _ _ _ _ _ E1) as [_ M1]. destruct (mark_class_member _ _ _ _ _ _ E3) as [_ M3].
  assert (Hv : forall m, val m = 0 \/ (val m = 1 /\ rtc (link c) r m)).
  { intros m. destruct (mark_class_spec _ _ _ _ _ _ E1 m) as [H|[H (x & [= <-] & ?)]]; [left; by rewrite H, (ci_val c Hi)|by right]. }
  split.
  { intros m. destruct (mark_class_spec _ _ _ _ _ _ E3 m) as [H|[H _]]; [|done]. rewrite H.
    destruct (Hv m) as [?|[_ Hp]]; [done|]. rewrite <- H. by apply (M3 r m). }
  destruct (check_rec_post c val _ _ (ci_reach c Hi) _ _ _ _ E2) as (P1 & P2 & P3 & P4).
  split.
  { intros m. destruct (decide (vis m = S (ctrav c))) as [->|Hm]; [done|]. rewrite (P2 m Hm).
    pose proof (ci_vis c Hi m). lia. }
  split.
  { rewrite Nat.add_comm in E2. cbn [check_tfi_rec plus] in E2. unfold is_ci in E2. destruct (ks (cb c) !! n) eqn:Ek; [|done].
    by apply lookup_lt_Some in Ek. }
  split.
  - intros ->. destruct (P3 eq_refl) as (x & m & [= <-] & Hp & Hg & Hm). exists m. split; [done|]. split; [|done].
    destruct (Hv m) as [?|[_ ?]]; [lia|done].
  - intros -> m Hg Hl Hp.
    apply (check_rec_sound c val _ _ n _ _ (ci_reach c Hi) E2) in Hp; [|intros k; pose proof (ci_vis c Hi k); lia|done].
    apply Hp. by eapply M1.
Qed.

Lemma link_insert c t n c1 : equivs c !! t = Some None -> equivs c1 = <[t := Some n]> (equivs c) ->
  forall x y, link c1 x y <-> link c x y \/ (x = t /\ y = n).
Proof.
  intros Ht E x y. unfold link. rewrite E. destruct (decide (x = t)) as [->|Hx].
  - rewrite list_lookup_insert by (by eapply lookup_lt_Some). rewrite Ht. split; [intros [= ->]; by right|intros [?|[_ ->]]; done].
  - rewrite list_lookup_insert_ne by done. split; [by left|]. intros [?|[? _]]; done.
Qed.

Lemma rtc_link_bound c r m : cinv c -> rtc (link c) r m -> r < size (cb c) -> m < size (cb c).
Proof. intros Hi Hp. induction Hp as [|x y z H _ IH]; [done|]. intros _. apply IH. by apply (ci_bound c Hi x y). Qed.

Lemma set_choice_inv n r c b c' : cinv c -> set_choice n r c = Some (b, c') ->
  cinv c' /\ cb c' = cb c /\
  (if b then r < n /\ n < size (cb c) /\
     (forall m, is_gate (cb c) m -> rtc (link c) r m -> ~ rtc (cedge c) n m) /\
     reprs c' = <[n := r]> (reprs c) /\ n < length (reprs c) /\
     equivs c' !! n = Some None /\
     (exists t, rtc (link c) r t /\ equivs c !! t = Some None /\ equivs c' = <[t := Some n]> (equivs c))
   else equivs c' = equivs c /\ reprs c' = reprs c /\
     (n <= r \/ exists m, is_gate (cb c) m /\ rtc (link c) r m /\ rtc (cedge c) n m)).
Proof.
  intros Hi. unfold set_choice. destruct (decide (n <= r)) as [Hnr|Hnr].
  { intros [= <- <-]. split; [done|]. split; [done|]. split; [done|]. split; [done|]. by left. }
  destruct (check_tfi n r c) as [[b' c1]|] eqn:E1; [|done]. cbn [mbind option_bind].
  destruct (check_tfi_inv n r c b' c1 Hi E1) as (K1 & K2 & K3 & K4 & K5 & K6 & K7 & K8 & K9).
  assert (Hi1 : cinv c1).
  { destruct c1 as [b1 e1 r1 v1 w1 t1]. cbn in *. subst b1 e1 r1 t1. split; cbn; try apply Hi; try done. }
  destruct b'.
  { intros [= <- <-]. split; [done|]. split; [done|]. split; [done|]. split; [done|]. right. by apply K8. }
  destruct (reprs c1 !! n) as [r0|] eqn:Er; [|done]. cbn [mbind option_bind].
  destruct (class_tail _ c1 r) as [t|] eqn:Et; [|done]. cbn [mbind option_bind equivs].
  destruct (class_tail_spec _ _ _ _ Et) as [Ht1 Ht2].
  set (c2 := Cnet _ _ _ _ _ _). change (equivs c2) with (<[t := Some n]> (equivs c1)).
  destruct (<[t := Some n]> (equivs c1) !! n) as [e|] eqn:Ee; [|done]. cbn [mbind option_bind]. destruct e as [|]; [done|]. intros [= <- <-].
  assert (Hl : forall x y, link c2 x y <-> link c1 x y \/ (x = t /\ y = n)) by (by apply link_insert).
  assert (Hlk : forall x y, link c1 x y <-> link c x y) by (intros; unfold link; by rewrite K2).
  assert (Hrt : rtc (link c) r t).
  { clear -Ht1 Hlk. induction Ht1; [done|]. eapply rtc_l; [by apply Hlk|done]. }
  assert (Htn : t <> n).
  { intros ->. rewrite list_lookup_insert in Ee; [done|]. by eapply lookup_lt_Some. }
  assert (Hts : t < size (cb c)) by (eapply rtc_link_bound; [done..|lia]).
  rewrite K2 in Ht2. rewrite K3 in Er.
  split.
  - split; cbn [cb equivs reprs cval cvis ctrav c2]; try done.
    + rewrite K1. apply Hi.
    + assert (Hce : forall x y, cedge c2 x y -> cedge c x y \/ (x = t /\ y = n /\ is_gate (cb c) t)).
      { intros x y [Hf|[Hg Hxy]].
        - left. left. change (cb c2) with (cb c1) in Hf. by rewrite K1 in Hf.
        - change (cb c2) with (cb c1) in Hg. rewrite K1 in Hg. apply Hl in Hxy as [Hxy|[-> ->]]; [|by right].
          left. right. split; [done|]. by apply Hlk. }
      destruct (is_ci (cb c) t) as [ci|] eqn:Eci.
      2:{ unfold is_ci in Eci. destruct (lookup_lt_is_Some_2 (ks (cb c)) t Hts) as [? E]. by rewrite E in Eci. }
      destruct ci.
      * apply (acyclic_sub (cedge c)); [apply Hi|]. intros x y Hxy. destruct (Hce x y Hxy) as [?|(_ & _ & Hg)]; [done|].
        apply is_ci_false in Hg; [congruence|apply Hi].
      * apply (acyclic_add (cedge c) _ t n); [apply Hi| |].
        -- intros x y Hxy. destruct (Hce x y Hxy) as [?|(? & ? & _)]; [by left|by right].
        -- apply K9; [done| |done]. apply is_ci_false; [apply Hi|done].
    + apply (acyclic_add (link c) _ t n); [apply Hi| |].
      * intros x y Hxy. apply Hl in Hxy as [Hxy|?]; [left; by apply Hlk|by right].
      * intros Hp. apply rtc_inv in Hp as [->|(y & Hy & _)]; [done|].
        unfold link in Hy. rewrite list_lookup_insert_ne in Ee by done. rewrite K2, Hy in Ee. done.
    + intros x y Hxy. rewrite K1. apply Hl in Hxy as [Hxy|[-> ->]]; [by apply (ci_bound c Hi), Hlk|done].
    + rewrite !insert_length, K2, K3. apply Hi.
    + intros x y. rewrite K3. destruct (decide (x = n)) as [->|Hx].
      * rewrite list_lookup_insert by (by eapply lookup_lt_Some). intros [= <-]. lia.
      * rewrite list_lookup_insert_ne by done. apply Hi.
    + intros x y Hxy. rewrite K3. apply Hl in Hxy as [Hxy|[-> ->]].
      * destruct (decide (y = n)) as [->|Hy].
        -- exists r. rewrite list_lookup_insert by (by eapply lookup_lt_Some). split; [done|lia].
        -- rewrite list_lookup_insert_ne by done. apply (ci_head c Hi x y). by apply Hlk.
      * exists r. rewrite list_lookup_insert by (by eapply lookup_lt_Some). split; [done|lia].
  - split; [done|]. split; [lia|]. split; [done|]. split; [by apply K9|]. cbn [equivs reprs c2]. rewrite K2, K3.
    split; [done|]. split; [by eapply lookup_lt_Some|]. rewrite K2 in Ee. split; [done|]. by exists t.
Qed.

Lemma chist_cinv c : chist c -> cinv c.
Proof.
  induction 1 as [s sz Hr|c o f c' _ IH Ho E|c n r b c' _ IH E].
  - by apply cinv_init.
  - by eapply cinv_step.
  - by eapply set_choice_inv.
Qed.
Lemma chist_fresh_chist c : chist_fresh c -> chist c.
Proof. induction 1; [by constructor|by econstructor|by econstructor]. Qed.

(* ---- set_choice succeeds ---- *)
Lemma mark_class_some c v : forall k tmp L val,
  (forall n m, link c n m -> m < size (cb c) /\ is_Some (equivs c !! m)) ->
  match tmp with Some n => n < size (cb c) /\ is_Some (equivs c !! n) | None => True end ->
  NoDup L -> (forall m, m ∈ L <-> exists n, tmp = Some n /\ rtc (link c) n m) -> length L < k -> acyclic (link c) ->
  is_Some (mark_class k c v tmp val).
Proof.
  induction k as [|k IH]; intros tmp L val Hb Ht Hd Hm Hk Ha; [lia|]. cbn [mark_class]. destruct tmp as [n|]; [|done].
  destruct Ht as [Hn [e He]]. destruct (lookup_lt_is_Some_2 (ks (cb c)) n Hn) as [? ->]. cbn. rewrite He. cbn [mbind option_bind].
  assert (Hin : n ∈ L) by (apply Hm; by exists n).
  apply elem_of_list_split in Hin as (L1 & L2 & ->).
  apply (IH e (L1 ++ L2)); [done| | | | |done].
  - destruct e as [y|]; [|done]. by apply (Hb n y).
  - apply NoDup_app in Hd as (D1 & D2 & D3). apply NoDup_cons in D3 as [D3 D4]. apply NoDup_app. split; [done|].
    split; [|done]. intros q Hx Hx'. apply (D2 q Hx). by right.
  - assert (Hnn : n ∉ L1 ++ L2).
    { apply NoDup_app in Hd as (D1 & D2 & D3). apply NoDup_cons in D3 as [D3 D4]. intros [Hx|Hx]%elem_of_app; [|done].
      apply (D2 n Hx). by left. }
    intros m. split.
    + intros Hx. assert (m ∈ L1 ++ n :: L2) as Hx' by (apply elem_of_app in Hx as [?|?]; apply elem_of_app; [by left|right; by right]).
      apply Hm in Hx' as (n' & [= <-] & Hp). apply rtc_inv in Hp as [->|(y & Hy & Hp)]; [done|].
      unfold link in Hy. rewrite He in Hy. injection Hy as ->. by exists y.
    + intros (y & -> & Hp).
      assert (m ∈ L1 ++ n :: L2) as Hx. { apply Hm. exists n. split; [done|]. by eapply rtc_l. }
      apply elem_of_app in Hx as [Hx|[->|Hx]%elem_of_cons]; [apply elem_of_app; by left| |apply elem_of_app; by right].
      exfalso. apply (Ha n). eapply tc_rtc_r; [by apply tc_once|done].
  - rewrite app_length in *. cbn in Hk. lia.
Qed.

Lemma class_tail_some c : forall k r L,
  (forall n m, link c n m -> is_Some (equivs c !! m)) -> is_Some (equivs c !! r) ->
  NoDup L -> (forall m, m ∈ L <-> rtc (link c) r m) -> length L < k -> acyclic (link c) ->
  is_Some (class_tail k c r).
Proof.
  induction k as [|k IH]; intros n L Hb [e He] Hd Hm Hk Ha; [lia|]. cbn [class_tail]. rewrite He. cbn.
  destruct e as [y|]; [|done].
  assert (Hin : n ∈ L) by (by apply Hm).
  apply elem_of_list_split in Hin as (L1 & L2 & ->).
  assert (Hnn : n ∉ L1 ++ L2).
  { apply NoDup_app in Hd as (D1 & D2 & D3). apply NoDup_cons in D3 as [D3 D4]. intros [Hx|Hx]%elem_of_app; [|done].
    apply (D2 n Hx). by left. }
  apply (IH y (L1 ++ L2)); [done| | | | |done].
  - by apply (Hb n y).
  - apply NoDup_app in Hd as (D1 & D2 & D3). apply NoDup_cons in D3 as [D3 D4]. apply NoDup_app. split; [done|].
    split; [|done]. intros q Hx Hx'. apply (D2 q Hx). by right.
  - intros m. split.
    + intros Hx. assert (m ∈ L1 ++ n :: L2) as Hx' by (apply elem_of_app in Hx as [?|?]; apply elem_of_app; [by left|right; by right]).
      apply Hm in Hx' as Hp. apply rtc_inv in Hp as [->|(z & Hy & Hp)]; [done|].
      unfold link in Hy. rewrite He in Hy. by injection Hy as ->.
    + intros Hp.
      assert (m ∈ L1 ++ n :: L2) as Hx. { apply Hm. by eapply rtc_l. }
      apply elem_of_app in Hx as [Hx|[->|Hx]%elem_of_cons]; [apply elem_of_app; by left| |apply elem_of_app; by right].
      exfalso. apply (Ha n). eapply tc_rtc_r; [by apply tc_once|done].
  - rewrite app_length in *. cbn in Hk. lia.
Qed.

(* unvisited nodes *)
Definition unvis (N tid : nat) (vis : nat -> nat) : nat := length (List.filter (fun m => negb (vis m =? tid)) (seq 0 N)).
Lemma unvis_mono N tid vis vis' : (forall m, vis m = tid -> vis' m = tid) -> unvis N tid vis' <= unvis N tid vis.
Proof.
  intros H. unfold unvis. induction (seq 0 N) as [|x l IH]; cbn; [done|].
  destruct (vis x =? tid) eqn:E; cbn.
  - apply Nat.eqb_eq in E. rewrite (proj2 (Nat.eqb_eq _ _) (H x E)). cbn. done.
  - destruct (vis' x =? tid); cbn; lia.
Qed.
Lemma unvis_upd N tid vis n : n < N -> vis n <> tid -> unvis N tid (upd vis n tid) < unvis N tid vis.
Proof.
  intros Hn Hv. unfold unvis. assert (Hin : n ∈ seq 0 N) by (apply elem_of_seq; lia).
  assert (G : forall l, length (List.filter (fun m => negb (upd vis n tid m =? tid)) l) <= length (List.filter (fun m => negb (vis m =? tid)) l)).
  { induction l as [|x l IH]; cbn; [done|]. destruct (decide (x = n)) as [->|Hx].
    - rewrite upd_eq, Nat.eqb_refl. cbn. destruct (vis n =? tid); cbn; lia.
    - rewrite upd_ne by done. destruct (vis x =? tid); cbn; lia. }
  induction (seq 0 N) as [|x l IH]; [by apply elem_of_nil in Hin|]. cbn. apply elem_of_cons in Hin as [<-|Hin].
  - rewrite upd_eq, Nat.eqb_refl. rewrite (proj2 (Nat.eqb_neq _ _) Hv). cbn. specialize (G l). lia.
  - specialize (IH Hin). destruct (decide (x = n)) as [->|Hx].
    + rewrite upd_eq, Nat.eqb_refl. rewrite (proj2 (Nat.eqb_neq _ _) Hv). cbn. lia.
    + rewrite upd_ne by done. destruct (vis x =? tid); cbn; lia.
Qed.

Lemma check_rec_some c val tid : cinv c -> size (cb c) <= length (equivs c) -> forall fuel n vis,
  (forall x, n = Some x -> x < size (cb c)) -> unvis (size (cb c)) tid vis + 1 < fuel ->
  is_Some (check_tfi_rec fuel c val tid n vis).
Proof.
  intros Hi Hl. induction fuel as [|fuel IH]; intros n vis Hn Hf; [lia|]. cbn [check_tfi_rec].
  destruct n as [n|]; [|done]. specialize (Hn n eq_refl). unfold is_ci.
  destruct (lookup_lt_is_Some_2 (ks (cb c)) n Hn) as [[ka kb] Ek]. rewrite Ek. cbn [mbind option_bind fst snd].
  case_bool_decide as Hab; [done|]. destruct (decide (val n = 1)); [done|]. destruct (decide (vis n = tid)) as [|Hv]; [done|].
  pose proof (unvis_upd _ _ _ _ Hn Hv) as Hu.
  assert (Hfi : sidx ka < n /\ sidx kb < n).
  { destruct (topological (cb c) n ka kb (ci_reach c Hi) Ek Hab). lia. }
  destruct (IH (Some (sidx ka)) (upd vis n tid)) as [[r0 vis1] E1]; [intros x [= <-]; lia|lia|]. rewrite E1. cbn [mbind option_bind].
  destruct r0; [done|].
  destruct (check_rec_post c val tid fuel (ci_reach c Hi) _ _ _ _ E1) as (A1 & _).
  pose proof (unvis_mono (size (cb c)) tid _ _ A1) as U1.
  destruct (IH (Some (sidx kb)) vis1) as [[r1 vis2] E2]; [intros x [= <-]; lia|lia|]. rewrite E2. cbn [mbind option_bind].
  destruct r1; [done|].
  destruct (check_rec_post c val tid fuel (ci_reach c Hi) _ _ _ _ E2) as (B1 & _).
  pose proof (unvis_mono (size (cb c)) tid _ _ B1) as U2.
  destruct (lookup_lt_is_Some_2 (equivs c) n) as [e Ee]; [lia|]. rewrite Ee. cbn [mbind option_bind].
  apply IH; [|lia]. intros x ->. by apply (ci_bound c Hi n x).
Qed.

Lemma unvis_le N tid vis : unvis N tid vis <= N.
Proof.
  unfold unvis. rewrite <- (seq_length N 0) at 2. induction (seq 0 N) as [|x l IH]; cbn; [done|].
  destruct (negb _); cbn; lia.
Qed.

Lemma set_choice_total n r c : cinv c -> size (cb c) <= length (equivs c) -> n < size (cb c) ->
  equivs c !! n = Some None -> (is_gate (cb c) n \/ forall m, ~ link c m n) ->
  is_Some (set_choice n r c).
Proof.
  intros Hi Hl Hn He Hnt. unfold set_choice. destruct (decide (n <= r)) as [|Hnr]; [done|].
  assert (Hb : forall x y, link c x y -> y < size (cb c) /\ is_Some (equivs c !! y)).
  { intros x y Hxy. destruct (ci_bound c Hi x y Hxy). split; [done|]. apply lookup_lt_is_Some. lia. }
  assert (Hrb : r < size (cb c) /\ is_Some (equivs c !! r)) by (split; [lia|apply lookup_lt_is_Some; lia]).
  destruct (chain_total c (length (equivs c)) (fun x => x < size (cb c))) with (n := r) as (L & _ & L1 & L2 & L3 & L4).
  { apply Hi. } { intros x y _ Hxy. by eapply Hb. } { intros x Hx. split; [lia|]. apply lookup_lt_is_Some. lia. } { lia. }
  assert (HL : length L <= length (equivs c)).
  { rewrite <- (seq_length (length (equivs c)) 0). apply NoDup_incl_length; [by apply NoDup_ListNoDup|].
    intros x Hx%elem_of_list_In. apply in_seq. apply L2 in Hx. lia. }
  assert (Hm : forall m, m ∈ L <-> exists n0, Some r = Some n0 /\ rtc (link c) n0 m).
  { intros m. rewrite L3. split; [by exists r|]. by intros (? & [= <-] & ?). }
  unfold check_tfi.
  destruct (mark_class_some c 1 (S (length (equivs c))) (Some r) L (cval c)) as [val E1]; [done|done|done|done|lia|apply Hi|].
  rewrite E1. cbn [mbind option_bind].
  destruct (check_rec_some c val (S (ctrav c)) Hi Hl (size (cb c) + 2) (Some n) (cvis c)) as [[b vis] E2].
  { by intros x [= <-]. } { pose proof (unvis_le (size (cb c)) (S (ctrav c)) (cvis c)). lia. }
  rewrite E2. cbn [mbind option_bind].
  destruct (mark_class_some c 0 (S (length (equivs c))) (Some r) L val) as [val' E3]; [done|done|done|done|lia|apply Hi|].
  rewrite E3. cbn [mbind option_bind]. destruct b; [done|]. cbn [reprs equivs].
  destruct (lookup_lt_is_Some_2 (reprs c) n) as [r0 ->]; [rewrite (ci_len c Hi); lia|]. cbn [mbind option_bind].
  set (c1 := Cnet _ _ _ _ _ _).
  destruct (class_tail_some c1 (S (length (equivs c))) r L) as [t Et]; [|apply Hrb|done|done|lia|apply Hi|].
  { intros x y Hxy. by eapply Hb. }
  rewrite Et. cbn [mbind option_bind]. destruct (class_tail_spec _ _ _ _ Et) as [T1 T2].
  change (equivs (Cnet (cb c1) (<[t := Some n]> (equivs c)) (<[n := r]> (reprs c)) (cval c1) (cvis c1) (ctrav c1)))
    with (<[t := Some n]> (equivs c)).
  assert (t <> n) as Htn.
  { intros ->. destruct Hnt as [Hg|Hnt].
    - assert (Hval : val n = 1).
      { destruct (mark_class_member _ _ _ _ _ _ E1) as [_ M]. by apply (M r n). }
      rewrite Nat.add_comm in E2. cbn [check_tfi_rec plus] in E2. rewrite (proj2 (is_ci_false _ n (ci_reach c Hi)) Hg) in E2.
      cbn in E2. destruct (decide (val n = 1)); [done|done].
    - apply rtc_inv_r in T1 as [->|(y & _ & Hy)]; [lia|]. by apply (Hnt y). }
  rewrite list_lookup_insert_ne by done. rewrite He. done.
Qed.

(* at most one predecessor *)
Definition one_class (c : cnet) : Prop := forall x y n, link c x n -> link c y n -> x = y.
Lemma chist_fresh_one c : chist_fresh c -> one_class c.
Proof.
  intros H. induction H as [s sz Hr|c o f c' H IH Ho E|c n r b c' H IH Hn E].
  - intros x y n Hl. exfalso. unfold link in Hl. cbn in Hl. apply elem_of_list_lookup_2 in Hl. unfold init_equivs in Hl.
    by apply elem_of_list_In, repeat_spec in Hl.
  - unfold base_op in E. destruct (step o (cb c)) as [[g s']|]; [|done]. injection E as <- <-. exact IH.
  - pose proof (chist_cinv _ (chist_fresh_chist _ H)) as Hi.
    destruct (set_choice_inv n r c b c' Hi E) as (_ & _ & Hb). destruct b.
    + destruct Hb as (_ & _ & _ & _ & _ & _ & t & _ & Ht & Eq). pose proof (link_insert c t n c' Ht Eq) as Hl.
      intros x y k Hx Hy. apply Hl in Hx as [Hx|[-> ->]]; apply Hl in Hy as [Hy|[-> Hk]].
      * by eapply IH.
      * subst k. exfalso. apply Hn. exists x. by right.
      * exfalso. apply Hn. exists y. by right.
      * done.
    + destruct Hb as (Eq & _). intros x y k Hx Hy. unfold link in *. rewrite Eq in Hx, Hy. by eapply IH.
Qed.
