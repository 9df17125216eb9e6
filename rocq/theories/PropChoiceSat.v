(* C39: the SAT prover of the choice computation. *)
From Verif Require Import Base Aig AigSem AigProofs AigApi CleanProofs Demo Cnf CnfProofs Choice ChoiceSat ChoiceSatProofs.

(* For every input assignment there is an assignment of the solver's variables
   that gives every encoded node its value and satisfies all clauses, those
   learned from earlier answers included. *)
Theorem C39_clauses_satisfied ps solve sz s p env v : correct_oracle solve -> phist ps solve sz s p ->
  valuation s env v -> exists x, agrees ps s p v x /\ cnf_sat x (scls p).
Proof.
  intros Ho Hp Hv. pose proof (phist_inv ps solve sz s p Ho Hp) as I.
  destruct (assignment_exists ps s sz p env I) as [x Hx]. exists x. split; [|by apply (pi_sound _ _ _ _ _ I env)].
  apply agrees_dec. intros n Hn. rewrite (Hx n Hn). symmetry.
  apply valuation_unique; [apply reachable_wf, I|done|]. by apply (pi_dom _ _ _ _ _ I).
Qed.
Print Assumptions C39_clauses_satisfied.

(* Conversely the clauses pin down every encoded node: an assignment satisfying
   them gives each node the value it has when the inputs are read off it. *)
Theorem C39_clauses_exact ps solve sz s p env v x : correct_oracle solve -> phist ps solve sz s p ->
  valuation s env v -> cnf_sat x (scls p) ->
  (forall k n w, ins s !! k = Some n -> smap p !! n = Some w -> w <> 0 -> x w = env k) -> agrees ps s p v x.
Proof.
  intros Ho Hp Hv Hs Hin. pose proof (phist_inv ps solve sz s p Ho Hp) as I. pose proof (reachable_wf s (pi_reach _ _ _ _ _ I)) as Hw.
  apply agrees_dec. intros n Hn. rewrite (valuation_unique s env v Hw Hv n (pi_dom _ _ _ _ _ I n Hn)).
  apply (models_exact ps s sz p x env I Hs); [|done]. intros k m Hk (w & E & Hne).
  rewrite (dec_ci ps s sz [] p x m I); [rewrite E; by apply (Hin k m w)|by exists w|].
  intros (a & b & E' & _ & Hab). destruct (wf_in s Hw k m Hk) as [_ H]. rewrite E' in H. by injection H as -> ->.
Qed.
Print Assumptions C39_clauses_exact.

(* An UNSAT verdict: the two nodes are equal up to their values for the all-zero
   input, under every assignment. *)
Theorem C39_unsat_sound ps solve sz s p repr n p' env v pr pn : correct_oracle solve -> phist ps solve sz s p ->
  repr < size s -> n < size s -> sat_prove ps s solve repr n p = Some (Failure, p') ->
  valuation s env v -> ph s !! repr = Some pr -> ph s !! n = Some pn -> xorb (v repr) pr = xorb (v n) pn.
Proof.
  intros Ho Hp Hr Hn H Hv Er En. pose proof (phist_inv ps solve sz s p Ho Hp) as I. pose proof (reachable_wf s (pi_reach _ _ _ _ _ I)) as Hw.
  destruct (sat_prove_spec ps solve s sz repr n p _ p' Ho I Hr Hn H) as [_ Hd]. specialize (Hd env).
  unfold differ in Hd. rewrite Er, En in Hd. cbn in Hd.
  rewrite !(valuation_unique s env v Hw Hv) by done.
  by destruct (ev s env repr), (ev s env n), pr, pn.
Qed.
Print Assumptions C39_unsat_sound.

(* A SAT verdict: the inputs read with get_var_value are a counterexample. *)
Theorem C39_sat_counterexample ps solve sz s p repr n m p' env v pr pn : correct_oracle solve -> phist ps solve sz s p ->
  repr < size s -> n < size s -> sat_prove ps s solve repr n p = Some (Success m, p') ->
  (forall k i b, ins s !! k = Some i -> get_var_value p' m i = Some b -> env k = b) ->
  valuation s env v -> ph s !! repr = Some pr -> ph s !! n = Some pn -> xorb (v repr) pr <> xorb (v n) pn.
Proof.
  intros Ho Hp Hr Hn H Henv Hv Er En. pose proof (phist_inv ps solve sz s p Ho Hp) as I. pose proof (reachable_wf s (pi_reach _ _ _ _ _ I)) as Hw.
  destruct (sat_prove_spec ps solve s sz repr n p _ p' Ho I Hr Hn H) as [_ Hd]. specialize (Hd env Henv).
  unfold differ in Hd. rewrite Er, En in Hd. cbn in Hd.
  rewrite !(valuation_unique s env v Hw Hv) by done. intros E. rewrite E in Hd. by rewrite xorb_nilpotent in Hd.
Qed.
Print Assumptions C39_sat_counterexample.

(* Below init_vars (1000) nodes every call for two different nodes goes through. *)
Theorem C39_defined ps solve sz s p repr n : correct_oracle solve -> phist ps solve sz s p ->
  repr <> n -> repr < size s -> n < size s -> size s < init_vars ps -> is_Some (sat_prove ps s solve repr n p).
Proof. intros Ho Hp. apply (sat_prove_total ps solve s sz). by apply phist_inv with solve. Qed.
Print Assumptions C39_defined.

(* ---- witnesses ---- *)
Definition try_all : oracle := fun _ cls lits =>
  match List.find (fun m => cls_b (fun i => nth i m false) cls && forallb (lit_val (fun i => nth i m false)) lits)
          (bools (nvars (cls ++ [lits]))) with
  | Some m => Success m
  | None => Failure
  end.
Lemma nvars_app a b : nvars (a ++ b) = Nat.max (nvars a) (nvars b).
Proof.
  unfold nvars. rewrite foldr_app. set (m := foldr _ 0 b). induction a as [|c a IH]; cbn; [done|]. rewrite IH.
  set (n := foldr _ 0 a). clear. induction c as [|l c IH]; cbn [foldr]; [done|]. rewrite IH. lia.
Qed.
Lemma try_all_correct : correct_oracle try_all.
Proof.
  split.
  - intros k cls lits m. unfold try_all. destruct (List.find _ _) as [m'|] eqn:E; [|done]. intros [= ->].
    apply List.find_some in E as [Hm%elem_of_list_In Hb]. apply andb_true_iff in Hb as [Hb1 Hb2].
    apply bools_length in Hm. rewrite Hm. split_and!.
    + rewrite nvars_app. lia.
    + apply Forall_forall. intros l Hl. apply nvars_elem with lits; [|done]. apply elem_of_app. right. by apply elem_of_list_singleton.
    + by apply cls_b_spec.
    + apply Forall_forall. intros l Hl. rewrite forallb_forall in Hb2. by apply Hb2, elem_of_list_In.
  - intros k cls lits. unfold try_all. destruct (List.find _ _) as [m'|] eqn:E; [done|]. intros _ x Hx Hl.
    set (N := nvars (cls ++ [lits])) in *. set (m := map x (seq 0 N)).
    assert (Hm : forall i, i < N -> nth i m false = x i).
    { intros i Hi. unfold m. by rewrite nth_lookup, map_lookup, lookup_seq_lt. }
    pose proof (List.find_none _ _ E m) as Hn. cbn beta in Hn.
    assert (Hin : In m (bools N)).
    { apply elem_of_list_In, bools_elem. unfold m. by rewrite map_length, seq_length. }
    specialize (Hn Hin). apply andb_false_iff in Hn as [Hn|Hn].
    + assert (cls_b (fun i => nth i m false) cls = true); [|congruence]. apply cls_b_spec.
      eapply cnf_sat_ext; [|exact Hx]. intros i Hi. rewrite Hm; [done|]. unfold N. rewrite nvars_app. lia.
    + assert (forallb (lit_val (fun i => nth i m false)) lits = true); [|congruence]. apply forallb_forall.
      intros l Hin'. apply elem_of_list_In in Hin'. rewrite Forall_forall in Hl. rewrite <- (Hl l Hin'). unfold lit_val. f_equal. apply Hm.
      apply nvars_elem with lits; [|done]. apply elem_of_app. right. by apply elem_of_list_singleton.
Qed.

(* inputs 1 2; 5 = xor from (1 & 2) and (!1 & !2); 8 = xnor from (1 & !2) and
   (!1 & 2); phases of 5 and 8 differ *)
Definition sat_demo : aig := build [OpPi; OpPi; OpAnd (Sig 1 false) (Sig 2 false); OpAnd (Sig 1 true) (Sig 2 true);
  OpAnd (Sig 3 true) (Sig 4 true); OpAnd (Sig 1 false) (Sig 2 true); OpAnd (Sig 1 true) (Sig 2 false); OpAnd (Sig 6 true) (Sig 7 true)].
Definition sat_params := Sparams true 5 1 1000.
Definition sat_p0 : prover := default (Prover 0 [] [] [] 0 0) (prover_init 9).
Definition sat_run (r n : nat) (p : prover) : answer * prover := default (Timeout, p) (sat_prove sat_params sat_demo try_all r n p).
Example C39_nonvacuous :
  (* equal up to phase; different; and again after a restart of the solver *)
  let '(a1, p1) := sat_run 5 8 sat_p0 in
  let '(a2, p2) := sat_run 3 8 p1 in
  let '(a3, p3) := sat_run 5 8 p2 in
  phist sat_params try_all 9 sat_demo p1 /\ phist sat_params try_all 9 sat_demo p3 /\
  a1 = Failure /\ a2 = Success [false; false; false; false; true; true] /\ a3 = Failure /\ scalls p1 = 1 /\ scalls p2 = 0 /\ sused p3 = [3; 1; 2; 8; 5].
Proof.
  destruct (sat_run 5 8 sat_p0) as [a1 p1] eqn:E1. destruct (sat_run 3 8 p1) as [a2 p2] eqn:E2.
  destruct (sat_run 5 8 p2) as [a3 p3] eqn:E3.
  assert (Hr : reachable sat_demo) by (apply build_reachable; vm_compute; reflexivity).
  assert (H0 : phist sat_params try_all 9 sat_demo sat_p0).
  { apply ph_init; [exact Hr|vm_compute; lia|vm_compute; reflexivity]. }
  vm_compute in E1. injection E1 as <- <-. vm_compute in E2. injection E2 as <- <-. vm_compute in E3. injection E3 as <- <-.
  assert (H1 : phist sat_params try_all 9 sat_demo (sat_run 5 8 sat_p0).2).
  { eapply (ph_prove _ _ _ _ _ 5 8); [exact H0|vm_compute; lia|vm_compute; lia|vm_compute; reflexivity]. }
  assert (H2 : phist sat_params try_all 9 sat_demo (sat_run 3 8 (sat_run 5 8 sat_p0).2).2).
  { eapply (ph_prove _ _ _ _ _ 3 8); [exact H1|vm_compute; lia|vm_compute; lia|vm_compute; reflexivity]. }
  split; [vm_compute in H1; exact H1|]. split.
  { eapply (ph_prove _ _ _ _ _ 5 8); [vm_compute in H2; exact H2|vm_compute; lia|vm_compute; lia|vm_compute; reflexivity]. }
  vm_compute. split_and!; reflexivity.
Qed.

(* From [init_vars] variables on the prover may ask about a variable the solver
   does not know, violating its assertion: here an input that occurs in no clause
   is compared with a node encoded by an earlier call.  Network: k inputs and the
   conjunction of the first k - 2, for k = init_vars = 12 (the code's constant is
   1000; computing the witness of that size is too slow). *)
Definition wide_n : nat := 21.
Definition wide : aig := build (repeat OpPi 12 ++ OpAnd (Sig 1 false) (Sig 2 false) ::
  map (fun i => OpAnd (Sig (10 + i) false) (Sig i false)) (seq 3 8)).
Definition ask_nothing : oracle := fun _ _ _ => Timeout.
Definition wide_params := Sparams true 5000 100 12.
Theorem C39_unknown_variable_refuted : exists ps sz s p, phist ps ask_nothing sz s p /\ correct_oracle ask_nothing /\
  is_gate s wide_n /\ 11 ∈ ins s /\ sat_prove ps s ask_nothing 11 wide_n p = None.
Proof.
  destruct (prover_init 24) as [p0|] eqn:E0; [|vm_compute in E0; discriminate E0].
  destruct (sat_prove wide_params wide ask_nothing 1 wide_n p0) as [[r p]|] eqn:E1;
    [|vm_compute in E0; injection E0 as <-; vm_compute in E1; discriminate E1].
  exists wide_params, 24, wide, p. split_and!.
  - eapply (ph_prove _ _ _ _ p0 1 wide_n); [|vm_compute; lia|vm_compute; lia|exact E1].
    apply ph_init; [apply build_reachable; vm_compute; reflexivity|vm_compute; lia|exact E0].
  - split; intros; discriminate.
  - exists (Sig 10 false), (Sig 20 false). split; [vm_compute; reflexivity|]. split; discriminate.
  - apply (elem_of_list_lookup_2 _ 10). vm_compute. reflexivity.
  - vm_compute in E0. injection E0 as <-. vm_compute in E1. injection E1 as _ <-. vm_compute. reflexivity.
Qed.
Print Assumptions C39_unknown_variable_refuted.
