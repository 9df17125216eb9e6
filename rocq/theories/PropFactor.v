(* Properties C25 and C26: algebraic division and factoring
   (include/operations/optimization/detail/sop_refactoring.hpp). *)
From Verif Require Import Base Aig AigSem AigProofs AigApi AigReach Demo Tt TtProofs Isop IsopProofs Factor FactorProofs FactorKernel FactorCircuit.

(* ---- C25: division ---- *)
(* words without the mark bit; any divisor *)
Theorem C25_division_exact f ds : unmarked f -> exists q r,
  sop_divide f ds = Some (f, q, r) /\
  (forall x, sop_val x f = sop_val x ds && sop_val x q || sop_val x r) /\
  apart q ds /\ (NoDup ds -> f ≡ₚ product ds q ++ r).
Proof.
  intros Hu. destruct (sop_divide_spec f ds Hu) as (q & r & E & Hd). exists q, r. split; [done|].
  split; [intros x; by apply division_val|]. split; [by eapply division_apart|]. by eapply division_perm.
Qed.
Print Assumptions C25_division_exact.

(* the remainder keeps the order of the dividend *)
Theorem C25_remainder_ordered f ds f' q r : unmarked f -> sop_divide f ds = Some (f', q, r) -> f' = f /\ r `sublist_of` f.
Proof.
  intros Hu E. destruct (sop_divide_spec f ds Hu) as (q' & r' & E' & Hd). rewrite E in E'. injection E' as -> -> ->.
  split; [done|by eapply division_rem].
Qed.
Print Assumptions C25_remainder_ordered.

(* nothing divisible is left: q times the divisor is found whenever no other
   product of the divisor fits into one of these products *)
Theorem C25_quotient_complete f ds f' q r c : unmarked f -> sop_divide f ds = Some (f', q, r) -> ds <> [] ->
  (forall d, d ∈ ds -> N.land c d = 0%N /\ N.lor c d ∈ f) ->
  (forall d d', d ∈ ds -> d' ∈ ds -> N.land (N.lor c d) d' = d' -> d' = d) -> c ∈ q.
Proof.
  intros Hu E Hne H1 H2. destruct (sop_divide_spec f ds Hu) as (q' & r' & E' & Hd). rewrite E in E'. injection E' as -> -> ->.
  eapply division_full; [done|done|]. split; [intros d Hd'; by apply H1|]. split; [|intros d Hd'; by apply H1].
  intros d d' Hd1 Hd2 Hs. apply H2; [done|done|]. by apply sub_land.
Qed.
Print Assumptions C25_quotient_complete.

(* division by one product and by one literal, for all words *)
Theorem C25_cube_division f d q r : sop_divide_by_cube f d = (q, r) ->
  f ≡ₚ map (fun c => N.lor c d) q ++ r /\ (forall c, c ∈ q -> N.land c d = 0%N) /\ (forall c, c ∈ r -> N.land c d <> d) /\
  forall x, sop_val x f = prod_val x d && sop_val x q || sop_val x r.
Proof.
  intros E. assert (Eq : quo f d = q) by (by rewrite E). assert (Er : rest f d = r) by (by rewrite E).
  split; [|split; [|split]].
  - rewrite <- Eq, <- Er. cbn. clear. induction f as [|c f IH]; [done|]. rewrite !filter_cons. destruct (decide (N.land c d = d)) as [E|E].
    + rewrite decide_False by (intros H; by apply H). cbn [map app]. rewrite <- IH. by rewrite lor_ldiff by (by apply sub_land).
    + rewrite decide_True by done. by rewrite <- Permutation_middle, <- IH.
  - intros c Hc. rewrite <- Eq in Hc. by apply quo_elem in Hc as [? _].
  - intros c Hc. rewrite <- Er in Hc. cbn in Hc. by apply elem_of_list_filter in Hc as [? _].
  - intros x. rewrite <- Eq, <- Er. apply cube_val.
Qed.
Print Assumptions C25_cube_division.

Theorem C25_literal_division f l :
  map (fun c => N.lor c (2 ^ N.of_nat l)) (sop_divide_by_lit f l) = filter (fun c => N.testbit c (N.of_nat l) = true) f /\
  forall c, c ∈ sop_divide_by_lit f l -> N.testbit c (N.of_nat l) = false.
Proof.
  split.
  - unfold sop_divide_by_lit. rewrite map_map. unfold has_lit. rewrite <- (map_id (filter _ f)) at 2. apply map_ext_in.
    intros c Hc. apply elem_of_list_In, elem_of_list_filter in Hc as [Hc _]. apply lor_ldiff.
    intros n. rewrite N.pow2_bits_eqb. by intros <-%N.eqb_eq.
  - intros c Hc. apply elem_of_list_In, in_map_iff in Hc as (c' & <- & _). rewrite N.ldiff_spec, N.pow2_bits_true. apply andb_false_r.
Qed.
Print Assumptions C25_literal_division.

(* making cube free: a common product is split off and nothing common is left *)
Theorem C25_cube_free f : unmarked f -> f <> [] -> exists m,
  f = map (fun c => N.lor c m) (sop_make_cube_free f) /\ (forall c, c ∈ sop_make_cube_free f -> N.land c m = 0%N) /\
  (forall x, sop_val x f = prod_val x m && sop_val x (sop_make_cube_free f)) /\
  sop_is_cube_free (sop_make_cube_free f) = true /\
  (sop_is_cube_free f = true <-> forall l, exists c, c ∈ f /\ N.testbit c l = false).
Proof.
  intros Hu Hne. exists (common f).
  assert (Hs : forall c, c ∈ f -> sub (common f) c) by (intros c; apply common_sub).
  assert (Em : sop_make_cube_free f = map (fun c => N.ldiff c (common f)) f).
  { unfold sop_make_cube_free. case_decide as E; [|done]. rewrite E. rewrite <- (map_id f) at 1. apply map_ext. intros c. by rewrite N.ldiff_0_r. }
  assert (E1 : f = map (fun c => N.lor c (common f)) (sop_make_cube_free f)).
  { rewrite Em, map_map. rewrite <- (map_id f) at 1. apply map_ext_in. intros c Hc. symmetry. apply lor_ldiff, Hs. by apply elem_of_list_In. }
  assert (Hfree : forall g, unmarked g -> g <> [] -> (sop_is_cube_free g = true <-> forall l, exists c, c ∈ g /\ N.testbit c l = false)).
  { intros g Hg Hgn. unfold sop_is_cube_free. rewrite bool_decide_eq_true. split.
    - intros E l. destruct (forallb (fun c => N.testbit c l) g) eqn:El.
      + exfalso. rewrite forallb_forall in El. destruct g as [|c g]; [done|].
        assert (Hb : N.testbit (common (c :: g)) l = true); [|by rewrite E, N.bits_0 in Hb].
        apply common_bit. split; [|intros c' Hc'; by apply El, elem_of_list_In].
        apply Forall_cons in Hg as [Hc _]. specialize (El c (or_introl eq_refl)). apply (proj1 (below_bits _ _) Hc) in El. lia.
      + clear -El. induction g as [|c g IH]; [done|]. cbn in El. apply andb_false_iff in El as [E|E].
        * exists c. split; [left|done]. * destruct (IH E) as (c' & ? & ?). exists c'. split; [by right|done].
    - intros H. apply N.bits_inj_0. intros l. destruct (N.testbit (common g) l) eqn:E; [|done]. apply common_bit in E as [_ E].
      destruct (H l) as (c & Hc & El). rewrite E in El; done. }
  split; [done|]. split; [|split; [|split]].
  - intros c Hc. rewrite Em in Hc. apply elem_of_list_In, in_map_iff in Hc as (c' & <- & _). apply ldiff_apart.
  - intros x. apply bool_iff. rewrite andb_true_iff, !sop_val_true, Em. split.
    + intros (c & Hc & Hv). rewrite <- (lor_ldiff c (common f) (Hs c Hc)), prod_val_lor, andb_true_iff in Hv. destruct Hv. split; [done|].
      exists (N.ldiff c (common f)). split; [|done]. apply elem_of_list_In, in_map_iff. exists c. split; [done|by apply elem_of_list_In].
    + intros [Hm (c & Hc & Hv)]. apply elem_of_list_In, in_map_iff in Hc as (c' & <- & Hc). apply elem_of_list_In in Hc. exists c'. split; [done|].
      by rewrite <- (lor_ldiff c' (common f) (Hs c' Hc)), prod_val_lor, Hv, Hm.
  - rewrite Em. unfold sop_is_cube_free. apply bool_decide_eq_true, N.bits_inj_0. intros l.
    destruct (N.testbit (common _) l) eqn:E; [|done]. apply common_bit in E as [Hl E]. exfalso.
    assert (Hb : N.testbit (common f) l = true).
    { apply common_bit. split; [done|]. intros c Hc. specialize (E (N.ldiff c (common f))). rewrite N.ldiff_spec, andb_true_iff in E.
      apply E. apply elem_of_list_In, in_map_iff. exists c. split; [done|by apply elem_of_list_In]. }
    destruct f as [|c f]; [done|]. specialize (E (N.ldiff c (common (c :: f)))). rewrite N.ldiff_spec, Hb, andb_false_r in E.
    discriminate E. left.
  - by apply Hfree.
Qed.
Print Assumptions C25_cube_free.

(* The multiset identity needs a divisor without repetitions ... *)
Theorem C25_repeated_divisor_refuted : exists f ds q r,
  unmarked f /\ sop_divide f ds = Some (f, q, r) /\ ~ f ≡ₚ product ds q ++ r.
Proof.
  exists [10%N], [2%N; 2%N], [8%N], []. split; [by repeat constructor|]. split; [vm_compute; reflexivity|].
  intros H%Permutation_length. done.
Qed.
Print Assumptions C25_repeated_divisor_refuted.
(* ... and division needs bit 63 to be free in the dividend. *)
Theorem C25_marked_dividend_refuted : exists f ds f' q r x,
  Forall (fun c => (c < 2 ^ 64)%N) f /\ sop_divide f ds = Some (f', q, r) /\ f' <> f /\
  sop_val x f <> (sop_val x ds && sop_val x q || sop_val x r).
Proof.
  exists [(2 ^ 63)%N], [1%N; 2%N], [0%N], [], [], (fun _ => true). split; [by repeat constructor|].
  split; [vm_compute; reflexivity|]. split; [done|]. by vm_compute.
Qed.
Print Assumptions C25_marked_dividend_refuted.

(* (ac + ad + bc + bd + e) / (a + b) = c + d, remainder e; positive literals *)
Definition sop_ex : sop := map N.of_nat [34; 130; 40; 136; 512].
Example C25_nonvacuous : unmarked sop_ex /\ sop_divide sop_ex [2%N; 8%N] = Some (sop_ex, [32%N; 128%N], [512%N]) /\
  sop_make_cube_free [34%N; 130%N] = [32%N; 128%N] /\ sop_divide_by_lit sop_ex 1 = [32%N; 128%N] /\ sop_is_cube_free [] = false.
Proof. split; [by repeat constructor|]. repeat split; by vm_compute. Qed.
Example C25_complete_nonvacuous : (forall d, d ∈ [2%N; 8%N] -> N.land 32 d = 0%N /\ N.lor 32 d ∈ sop_ex) /\
  (forall d d', d ∈ [2%N; 8%N] -> d' ∈ [2%N; 8%N] -> N.land (N.lor 32 d) d' = d' -> d' = d).
Proof.
  split.
  - intros d Hd. repeat (apply elem_of_cons in Hd as [->|Hd]); [| |by apply elem_of_nil in Hd]; (split; [done|]); apply elem_of_list_In; vm_compute; tauto.
  - intros d d' Hd Hd'. repeat (apply elem_of_cons in Hd as [->|Hd]); [| |by apply elem_of_nil in Hd];
      (repeat (apply elem_of_cons in Hd' as [->|Hd']); [| |by apply elem_of_nil in Hd']); by vm_compute.
Qed.

(* ---- C26: factoring ---- *)
(* value of the leaves: variable i is the value of the i-th leaf *)
Definition leaf_values (v : nat -> bool) (leaves : list signal) (x : nat -> bool) : Prop :=
  forall i f, leaves !! i = Some f -> x i = sval v f.

(* the factoring operator: any truth table of at most 31 variables *)
Theorem C26_factoring_computes s t leaves :
  reachable s -> tt_wf t -> nv t <= 31 -> nv t <= length leaves -> Forall (valid s) leaves ->
  exists f s', sop_factoring t leaves s = Some (f, s') /\ reachable s' /\ valid s' f /\
    (exists k, ks s' = ks s ++ k) /\ ins s' = ins s /\ outs s' = outs s /\
    forall env v v' x, valuation s env v -> valuation s' env v' -> leaf_values v leaves x -> sval v' f = tt_eval t x.
Proof.
  intros Hr Ht Hn Hl Hv. pose proof (sop_factoring_spec s t leaves Hr Ht Hn Hl Hv) as H.
  apply wp_elim in H as (f & s' & E & Hr' & He & Hvf & Hval). exists f, s'. split; [done|]. split; [done|]. split; [done|].
  split; [apply (ext_ks _ _ He)|]. split; [apply (ext_ins _ _ He)|]. split; [apply (ext_outs _ _ He)|].
  intros env v v' x V V' Hx. pose proof (reachable_wf s Hr) as W. pose proof (reachable_wf s' Hr') as W'.
  rewrite (valuation_sval s' env v' f W' V' Hvf), Hval. apply eval_ext. intros i Hi.
  destruct (lookup_lt_is_Some_2 leaves i) as [g Hg]; [lia|]. unfold cval. rewrite Hg, (Hx i g Hg). cbn [b_val reach_builder]. symmetry.
  apply valuation_sval; [done|done|]. by eapply (Forall_lookup_1 (valid s)).
Qed.
Print Assumptions C26_factoring_computes.

(* gen_factor_rec on sums of products in which no product contains another one *)
Theorem C26_sop_factoring s f children nl fuel :
  reachable s -> Forall (valid s) children -> nl <= 63 -> nl <= 2 * length children ->
  Forall (fun c => (c < 2 ^ N.of_nat nl)%N) f -> no_containment f -> f <> [] -> 0%N ∉ f -> sop_count_lit f < fuel ->
  exists g s', gen_factor_rec fuel children f nl s = Some (g, s') /\ reachable s' /\ valid s' g /\
    forall env v v' x, valuation s env v -> valuation s' env v' -> leaf_values v children x -> sval v' g = sop_val x f.
Proof.
  intros Hr Hv Hn Hl Hw Hc Hne H0 Hfu.
  assert (Hg : good nl f) by (split; [done|]; split; [by apply no_containment_anti|done]).
  assert (Hu : unmarked f) by (refine (within_unmarked children nl _ _ _ _); [lia|lia|done]).
  rewrite count_lits in Hfu by (by apply unmarked_small).
  pose proof (gens_gen_factor reach_builder s Hr children Hv nl Hl Hn fuel f Hg Hfu s (ext_refl s) Hr) as H.
  apply wp_elim in H as (g & s' & E & Hr' & He & Hvf & Hval). exists g, s'. split; [done|]. split; [done|]. split; [done|].
  intros env v v' x V V' Hx. pose proof (reachable_wf s Hr) as W. pose proof (reachable_wf s' Hr') as W'.
  rewrite (valuation_sval s' env v' g W' V' Hvf). etransitivity; [exact (Hval env)|]. unfold sop_val. clear -Hw Hl Hn Hx Hv W V.
  induction Hw as [|c f Hc Hw IH]; [done|]. cbn [existsb]. f_equal; [|done].
  assert (Hc64 : (c < 2 ^ 64)%N) by (eapply N.lt_trans; [exact Hc|]; apply N.pow_lt_mono_r; lia).
  apply bool_iff. rewrite !prod_val_spec by done.
  assert (Heq : forall l, has_lit c l = true -> lit_val (cval reach_builder s children env) l = lit_val x l); [|by split; intros H l Hcl; [rewrite <- Heq|rewrite Heq]; auto].
  intros l Hcl. apply (proj1 (below_bits _ _) Hc) in Hcl. destruct (lookup_lt_is_Some_2 children (l / 2)) as [g Hg]; [apply Nat.div_lt_upper_bound; lia|].
  assert (E : cval reach_builder s children env (l / 2) = x (l / 2)).
  { unfold cval. rewrite Hg, (Hx _ _ Hg). cbn [b_val reach_builder]. symmetry. apply valuation_sval; [done|done|]. by eapply (Forall_lookup_1 (valid s)). }
  unfold lit_val. by rewrite E.
Qed.
Print Assumptions C26_sop_factoring.

(* With containment an assertion fails: a b + a reaches the empty product. *)
Definition leaves4 : aig := build [OpPi; OpPi; OpPi; OpPi; OpPi].
Theorem C26_containment_refuted : exists f, reachable leaves4 /\ Forall (fun c => (c < 2 ^ 4)%N) f /\ f <> [] /\ 0%N ∉ f /\
  forall fuel, gen_factor_rec fuel [Sig 1 false; Sig 2 false] f 4 leaves4 = None.
Proof.
  exists [10%N; 2%N]. split; [apply build_reachable; by vm_compute|]. split; [by repeat constructor|]. split; [done|].
  split; [apply not_elem_of_cons; split; [done|]; apply not_elem_of_cons; split; [done|]; apply not_elem_of_nil|].
  intros fuel. destruct fuel as [|[|[|fuel]]]; vm_compute; reflexivity.
Qed.
Print Assumptions C26_containment_refuted.

(* (a + b)(c + d) + e *)
Definition table_ex : tt := Tt 5 (map (fun i => ((Nat.testbit i 0 || Nat.testbit i 1) && (Nat.testbit i 2 || Nat.testbit i 3)) || Nat.testbit i 4) (seq 0 32)).
Definition leaves_ex : list signal := [Sig 1 false; Sig 2 true; Sig 3 false; Sig 4 false; Sig 5 false].
Example C26_nonvacuous : reachable leaves4 /\ tt_wf table_ex /\ Forall (valid leaves4) leaves_ex /\
  option_map (fun r => size r.2) (sop_factoring table_ex leaves_ex leaves4) = Some (size leaves4 + 4) /\
  option_map snd (get_isop table_ex) = Some true.
Proof.
  split; [apply build_reachable; by vm_compute|]. split; [by vm_compute|]. split; [apply valid_check; by vm_compute|].
  split; by vm_compute.
Qed.
Example C26_sop_nonvacuous : Forall (fun c => (c < 2 ^ N.of_nat 10)%N) sop_ex /\ no_containment sop_ex /\ 0%N ∉ sop_ex /\
  option_map (fun r => size r.2) (gen_factor_rec 10 leaves_ex sop_ex 10 leaves4) = Some (size leaves4 + 4).
Proof.
  split; [by repeat constructor|]. split; [|split; [|by vm_compute]].
  - intros i j c d Hi Hj. do 5 (destruct i as [|i]; [do 5 (destruct j as [|j]; [injection Hi as <-; injection Hj as <-; by vm_compute|]); done|]); done.
  - apply not_elem_of_nil || (rewrite elem_of_list_In; vm_compute; naive_solver).
Qed.
