(* Property C54: cut-based balancing (balancing.hpp) with sums of products
   (sop_balancing.hpp). *)
From Verif Require Import Base Aig AigSem AigProofs AigApi AigReach Demo Topo Clean NetProofs Tt TtProofs TtCache Cut CutEnum CutEnumProofs Isop IsopProofs
  PropCutEnum SopBalance SopBalanceProofs.

(* A function that is not constantly false is rebuilt: the call completes, the network
   only grows, the candidate computes the function of its inputs, and the first call for
   a node announces a candidate. *)
Theorem C54_rebalance tie t inputs best_level best_cost d :
  on_top tie -> tt_wf t -> (exists x, tt_eval t x = true) -> length inputs = nv t -> reachable d ->
  Forall (fun x : arrival => valid d x.1 /\ is_Some x.2) inputs ->
  exists r d', sop_rebalancing tie t inputs best_level best_cost d = Some (r, d') /\ reachable d' /\ ext d d' /\
    (best_level = None -> r <> []) /\ length r <= 1 /\
    Forall (fun c : arrival * nat => valid d' c.1.1 /\ is_Some c.1.2 /\ better c.1.2 c.2 best_level best_cost = true /\
      forall env, sval (ev d' env) c.1.1 = tt_eval t (input_values d env inputs)) r.
Proof.
  intros Htie Ht Hx Hlen Hr Hin.
  pose proof (sop_ok False tie (or_intror Htie) t inputs best_level best_cost d Ht Hx Hlen Hr Hin) as H.
  destruct (sop_rebalancing tie t inputs best_level best_cost d) as [[r d']|] eqn:E; [|done].
  destruct H as (H1 & H2 & H3 & H4). exists r, d'. split; [done|]. split; [done|]. split; [done|]. split; [done|].
  assert (Hb : length r <= 1 /\ forall c, c ∈ r -> better c.1.2 c.2 best_level best_cost = true).
  { unfold sop_rebalancing, bnd, lift, ret in E. destruct (isop t) as [cs|]; [|done].
    destruct (foldM _ _ _ d) as [[y d1]|]; [|done]. destruct (balanced_tree _ _ _ _ d1) as [[cand d2]|]; [|done]. injection E as <- <-.
    destruct (better cand.2 _ best_level best_cost) eqn:Eb; (split; [cbn; lia|]); [|by intros c ?%elem_of_nil].
    intros c ->%elem_of_list_singleton. exact Eb. }
  destruct Hb as [Hl Hb]. split; [done|]. rewrite Forall_forall in H4 |- *. intros c Hc. destruct (H4 c Hc) as (? & ? & ?). auto.
Qed.
Print Assumptions C54_rebalance.

(* gates with a cut that the pass considers *)
Definition usable {D} (s : aig) (x : list (cutset D) * cache) : Prop :=
  forall n, in_use s n -> is_gate s n -> exists cs c t, x.1 !! n = Some cs /\ c ∈ vis cs /\ length (lvs c) <> 1 /\
    cache_get (fid c) x.2 = Some t /\ tt_is_const0 t = false.
Definition kept (s d : aig) : Prop :=
  reachable d /\ is_combinational d = true /\ npi d = npi s /\ npo d = npo s /\ forall env l, computes s env l <-> computes d env l.

(* Any rebalancing function, on all nodes or on a critical path only, any parameters of
   the cut enumeration: if every gate in use has a cut that the pass considers, the
   result has the same interface and the same functions. *)
Theorem C54_balancing {D} T fn crit nb lt upd (d0 : D) cap max s ps x :
  rebalances T fn -> 0 < nb -> reachable s -> is_combinational s = true -> 0 < max -> small max s ->
  cut_enumeration true lt upd d0 cap max s ps = Some x -> usable s x ->
  match balancing fn crit nb s (cut_enumeration true lt upd d0 cap max s ps) with Some d => kept s d | None => T end.
Proof.
  intros Hfn Hnb Hr Hc Hm [Hs1 Hs2] E Hu. apply bool_decide_eq_true in Hc as [Hci Hco]. pose proof (reachable_wf s Hr) as Hw.
  pose proof (cut_enumeration_spec true lt upd d0 cap max s ps Hw Hm Hci Hs1 (no_dead s Hw Hs2)) as H.
  rewrite E in H |- *. apply (balancing_ok T fn crit s x Hfn (wf_network s Hw) Hci Hco (i_len _ _ _ _ _ _ _ _ H)); [|exact Hu|done].
  intros n cs c Hg Hx Hin. assert (Hn : n < size s) by (rewrite <- (i_len _ _ _ _ _ _ _ _ H); by eapply lookup_lt_Some).
  destruct (i_done _ _ _ _ _ _ _ _ H n cs Hn Hx) as [[_ Hgd] _]. destruct (Hgd c Hin) as [[G1 G2 G3 G4 G5] _].
  split; [by apply G4|]. intros l Hl. destruct (G5 l Hl) as (_ & Heq & Hp). split; [|done].
  destruct (decide (l = n)) as [->|]; [right; by apply Heq|by left].
Qed.
Print Assumptions C54_balancing.

(* Tables that are not minimised, three or more cuts per node: every gate in use that is
   not constantly false has such a cut. *)
Theorem C54_usable {D} lt upd (d0 : D) cap max s ps x :
  reachable s -> is_combinational s = true -> 0 < max -> small max s ->
  2 <= cut_size ps -> 2 * cut_size ps <= cap -> minimize ps = false -> (3 <= cut_limit ps < 2 ^ 32)%N ->
  (forall n, in_use s n -> is_gate s n -> exists env v, valuation s env v /\ v n = true) ->
  cut_enumeration true lt upd d0 cap max s ps = Some x -> usable s x.
Proof.
  intros Hr Hc Hm Hs H2 Hcap Hmin Hlim Hnz E n Hu Hg. apply bool_decide_eq_true in Hc as [Hci Hco]. pose proof (reachable_wf s Hr) as Hw.
  pose proof (cut_enumeration_spec true lt upd d0 cap max s ps Hw Hm Hci (proj1 Hs) (no_dead s Hw (proj2 Hs))) as H. rewrite E in H.
  assert (Hn : n < size s) by (destruct Hg as (a & b & Ek & _); by eapply lookup_lt_Some).
  destruct (lookup_lt_is_Some_2 x.1 n) as [cs Ecs]; [by rewrite (i_len _ _ _ _ _ _ _ _ H)|].
  assert (Hn0 : n <> 0) by (by destruct Hg as (? & ? & ? & ? & ?)).
  destruct (C16_gates_have_cuts true lt upd d0 cap max s ps x n cs Hr Hci Hm Hs H2 Hcap Hmin Hlim E Ecs Hn0) as (_ & Hc & _).
  destruct (Hc Hg) as (c & Hin & Hl). destruct (i_done _ _ _ _ _ _ _ _ H n cs Hn Ecs) as [[_ Hgd] _]. destruct (Hgd c Hin) as [[_ _ _ G4 _] _].
  destruct (G4 eq_refl) as (t & Et & Ht & _ & Hf). exists cs, c, t. split; [done|]. split; [done|]. split; [lia|]. split; [done|].
  destruct (tt_is_const0 t) eqn:Ez; [|done]. destruct (Hnz n Hu Hg) as (env & v & V & Hv).
  rewrite <- (Hf env v V) in Hv. by rewrite (proj1 (is_const0_spec t Ht) Ez) in Hv.
Qed.
Print Assumptions C54_usable.

(* the pass with sums of products completes and keeps the functions *)
Theorem C54_sop_balancing {D} tie crit nb lt upd (d0 : D) cap max s ps :
  on_top tie -> 0 < nb -> reachable s -> is_combinational s = true -> 0 < max -> small max s ->
  2 <= cut_size ps -> 2 * cut_size ps <= cap -> minimize ps = false -> (3 <= cut_limit ps < 2 ^ 32)%N -> (cut_limit ps < N.of_nat max)%N ->
  (forall n, in_use s n -> is_gate s n -> exists env v, valuation s env v /\ v n = true) ->
  exists d, balancing (sop_rebalancing tie) crit nb s (cut_enumeration true lt upd d0 cap max s ps) = Some d /\ kept s d.
Proof.
  intros Htie Hnb Hr Hc Hm Hs H2 Hcap Hmin Hlim Hlim2 Hnz.
  destruct (C16_defined true lt upd d0 cap max s ps) as (x & E & _); try done; [by apply bool_decide_eq_true in Hc as [? ?]|lia|lia|].
  pose proof (C54_balancing False (sop_rebalancing tie) crit nb lt upd d0 cap max s ps x (sop_ok False tie (or_intror Htie)) Hnb Hr Hc Hm Hs E) as H.
  destruct (balancing _ _ _ _ _) as [d|]; [|destruct H; by eapply C54_usable]. exists d. split; [done|]. apply H. by eapply C54_usable.
Qed.
Print Assumptions C54_sop_balancing.

(* the first entry of a smallest level *)
Definition first_min (q : list arrival) : nat :=
  match list_find (fun x : arrival => forallb (fun y : arrival => negb (llt y.2 x.2)) q = true) q with Some (i, _) => i | None => 0 end.
Lemma first_min_on_top : on_top first_min.
Proof.
  intros q Hq. unfold first_min.
  assert (H : exists x, x ∈ q /\ forallb (fun y : arrival => negb (llt y.2 x.2)) q = true).
  { assert (G : exists x, x ∈ q /\ forall y, y ∈ q -> llt y.2 x.2 = false).
    { induction q as [|x q IH]; [done|]. destruct q as [|x' q].
      { exists x. split; [left|]. intros y ->%elem_of_list_singleton. unfold llt. destruct x.2; [|done]. apply bool_decide_eq_false_2. lia. }
      destruct IH as (z & Hz & Hm); [done|]. destruct (llt x.2 z.2) eqn:E.
      - exists x. split; [left|]. intros y [->|Hy]%elem_of_cons.
        + unfold llt. destruct x.2; [|done]. apply bool_decide_eq_false_2. lia.
        + specialize (Hm y Hy). unfold llt in *. destruct x.2, z.2, y.2; try done; rewrite ?bool_decide_eq_true, ?bool_decide_eq_false in *; lia.
      - exists z. split; [by right|]. intros y [->|Hy]%elem_of_cons; [done|by apply Hm]. }
    destruct G as (x & Hx & Hm). exists x. split; [done|]. apply forallb_forall. intros y Hy%elem_of_list_In. by rewrite Hm. }
  destruct H as (x & Hx & Hm).
  destruct (list_find_elem_of (fun x : arrival => forallb (fun y : arrival => negb (llt y.2 x.2)) q = true) q x Hx Hm) as [[i z] E].
  rewrite E. apply list_find_Some in E as (Ez & Hz & _). by exists z.
Qed.

Definition sop_pass (cap : nat) (s : aig) (ps : cut_ps) : option aig :=
  balancing (sop_rebalancing first_min) None 10 s (enum true cap s ps).

(* The default parameters allow 25 cuts per node, and the sets hold 12: the pass fails an
   assertion on every network. *)
Theorem C54_default_refuted fn crit nb cap s size minimize : balancing fn crit nb s (enum true cap s (CutPs size 25 minimize)) = None.
Proof. unfold balancing. destruct (balancing_inputs s (aig_init_n nb)) as [[m d]|]; done. Qed.
Print Assumptions C54_default_refuted.

(* 4 = x1 & x2, 5 = x3 & 4.  Two cuts per node: the set of node 5 is cut down to none. *)
Definition chain3 : aig := build [OpPi; OpPi; OpPi; OpAnd (pn 1) (pn 2); OpAnd (pn 3) (pn 4); OpPo (pn 5)].
Lemma chain3_pass2 : option_map outs (sop_pass 7 chain3 (CutPs 3 2 false)) = Some [Sig 0 false].
Proof. vm_compute. reflexivity. Qed.
Lemma chain3_pass3 : option_map (fun d => (ks d, outs d)) (sop_pass 7 chain3 (CutPs 3 3 false)) =
  option_map (fun d => (ks d, outs d)) (cleanup_dangling 10 chain3 false false).
Proof. vm_compute. reflexivity. Qed.

(* minimised tables: 3 = !x1 & !x2, 4 = x1 & !3 is x1, and its cut {x1} is left out *)
Definition absorb : aig := build [OpPi; OpPi; OpAnd (snot (pn 1)) (snot (pn 2)); OpAnd (pn 1) (snot (pn 3)); OpPo (pn 4)].
Lemma absorb_pass : option_map outs (sop_pass 7 absorb (CutPs 3 8 true)) = Some [Sig 0 false].
Proof. vm_compute. reflexivity. Qed.
Lemma absorb_cuts : leaves_of (enum true 7 absorb (CutPs 3 8 true)) 4 = Some [[1]].
Proof. vm_compute. reflexivity. Qed.

Lemma constant_output s d env v : valuation s env v -> map (sval v) (pos s) = [true] -> outs d = [Sig 0 false] -> ~ kept s d.
Proof.
  intros V E Ho (Hr & _ & _ & _ & H). destruct (H env [true]) as [H1 _]. destruct H1 as (w & Vw & E1); [by exists v|].
  unfold pos in E1. rewrite Ho in E1. destruct (npo d); [done|]. cbn in E1. unfold sval in E1. cbn in E1. rewrite (val_const _ _ _ Vw) in E1. done.
Qed.

Lemma gates_true s : reachable s -> forallb (ev s (fun _ => true)) (seq 1 (size s - 1)) = true ->
  forall n, in_use s n -> is_gate s n -> exists env v, valuation s env v /\ v n = true.
Proof.
  intros Hr H n _ (a & b & Ek & Hn & _). exists (fun _ => true), (ev s (fun _ => true)).
  split; [by apply ev_valuation, reachable_wf|]. apply lookup_lt_Some in Ek. unfold size in H.
  rewrite forallb_forall in H. apply H, in_seq. lia.
Qed.

Theorem C54_limit_refuted : exists s d, reachable s /\ is_combinational s = true /\ small 12 s /\
  (forall n, in_use s n -> is_gate s n -> exists env v, valuation s env v /\ v n = true) /\
  sop_pass 7 s (CutPs 3 2 false) = Some d /\ ~ kept s d.
Proof.
  pose proof chain3_pass2 as E. destruct (sop_pass 7 chain3 (CutPs 3 2 false)) as [d|] eqn:Ed; [|done]. injection E as E.
  assert (Hr : reachable chain3) by (apply build_reachable; vm_compute; reflexivity).
  pose proof (ev_valuation chain3 (fun _ => true) (reachable_wf _ Hr)) as V.
  exists chain3, d. split; [done|]. split; [vm_compute; reflexivity|]. split; [split; vm_compute; congruence|]. split.
  - apply gates_true; [exact Hr|vm_compute; reflexivity].
  - split; [done|]. apply (constant_output chain3 d (fun _ => true) _ V); [vm_compute; reflexivity|done].
Qed.
Print Assumptions C54_limit_refuted.

Theorem C54_minimize_refuted : exists s d, reachable s /\ is_combinational s = true /\ small 12 s /\
  sop_pass 7 s (CutPs 3 8 true) = Some d /\ ~ kept s d.
Proof.
  pose proof absorb_pass as E. destruct (sop_pass 7 absorb (CutPs 3 8 true)) as [d|] eqn:Ed; [|done]. injection E as E.
  assert (Hr : reachable absorb) by (apply build_reachable; vm_compute; reflexivity).
  pose proof (ev_valuation absorb (fun _ => true) (reachable_wf _ Hr)) as V.
  exists absorb, d. split; [done|]. split; [vm_compute; reflexivity|]. split; [split; vm_compute; congruence|].
  split; [done|]. apply (constant_output absorb d (fun _ => true) _ V); [vm_compute; reflexivity|done].
Qed.
Print Assumptions C54_minimize_refuted.

(* a function that is constantly false is announced as constantly true *)
Theorem C54_constant_refuted : exists t inputs d r d', tt_wf t /\ (forall x, tt_eval t x = false) /\ length inputs = nv t /\ reachable d /\
  Forall (fun x : arrival => valid d x.1 /\ is_Some x.2) inputs /\
  sop_rebalancing first_min t inputs None 0 d = Some (r, d') /\ exists c, c ∈ r /\ forall env, sval (ev d' env) c.1.1 = true.
Proof.
  exists (tt_const 1 false), [(pn 1, Some 0)], (build [OpPi]), [((Sig 0 true, Some 0), 0)], (build [OpPi]).
  assert (Hr : reachable (build [OpPi])) by (apply build_reachable; vm_compute; reflexivity).
  split; [apply const_wf|]. split; [intros x; apply eval_const|]. split; [done|]. split; [done|].
  split; [constructor; [|constructor]; split; [unfold valid; vm_compute; lia|by eexists]|]. split; [vm_compute; reflexivity|].
  eexists. split; [left|]. intros env. by apply (sval_const _ env true), reachable_wf.
Qed.
Print Assumptions C54_constant_refuted.

(* four inputs, a chain of ANDs: the pass balances it *)
Definition chain4 : aig := build
  [OpPi; OpPi; OpPi; OpPi; OpAnd (pn 1) (pn 2); OpAnd (pn 3) (pn 5); OpAnd (pn 4) (pn 6); OpPo (pn 7)].
Lemma chain4_pass : option_map (fun d => (ks d, outs d)) (sop_pass 8 chain4 (CutPs 4 8 false)) =
  Some (ks (build [OpPi; OpPi; OpPi; OpPi; OpAnd (pn 1) (pn 2); OpAnd (pn 3) (pn 4); OpAnd (pn 5) (pn 6)]), [pn 7]).
Proof. vm_compute. reflexivity. Qed.
Example C54_nonvacuous : on_top first_min /\ reachable chain4 /\ is_combinational chain4 = true /\ small 12 chain4 /\
  (forall n, in_use chain4 n -> is_gate chain4 n -> exists env v, valuation chain4 env v /\ v n = true) /\
  exists d, sop_pass 8 chain4 (CutPs 4 8 false) = Some d /\ kept chain4 d.
Proof.
  assert (Hr : reachable chain4) by (apply build_reachable; vm_compute; reflexivity).
  assert (Hc : is_combinational chain4 = true) by (vm_compute; reflexivity).
  assert (Hs : small 12 chain4) by (split; vm_compute; congruence).
  assert (Hnz : forall n, in_use chain4 n -> is_gate chain4 n -> exists env v, valuation chain4 env v /\ v n = true).
  { apply gates_true; [exact Hr|vm_compute; reflexivity]. }
  refine (conj first_min_on_top (conj Hr (conj Hc (conj Hs (conj Hnz _))))).
  exact (C54_sop_balancing first_min None 10 size_lt keep_data Datatypes.tt 8 12 chain4 (CutPs 4 8 false) first_min_on_top
    ltac:(lia) Hr Hc ltac:(lia) Hs ltac:(cbn; lia) ltac:(cbn; lia) eq_refl ltac:(split; vm_compute; congruence) ltac:(vm_compute; congruence) Hnz).
Qed.
