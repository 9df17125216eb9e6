(* C27, C29, C30: irredundant covers, CNF generation and equivalence checking. *)
From Verif Require Import Base Aig AigSem AigProofs AigApi Demo Clean NetProofs CleanProofs NetDemo PropNet
  Tt TtProofs TtCache Klut KlutSem KlutProofs PropKlut Isop IsopProofs Cnf CnfProofs.

(* ---- C27: isop ---- *)
(* For every table the cover computed contains exactly the points of the
   function, uses its variables only, no cube can be dropped and no literal can
   be removed.  Cubes have 32 variables in the code. *)
Theorem C27_isop t : tt_wf t -> nv t <= 32 ->
  exists cs, isop t = Some cs /\
    (forall x, tt_eval t x = true <-> covered cs x) /\
    Forall (cube_below (nv t)) cs /\ irredundant cs t /\ primes cs t.
Proof. intros Ht _. by apply isop_spec. Qed.
Print Assumptions C27_isop.

(* x0 xor x1, or x2 and not x3 *)
Definition isop_demo : tt :=
  tt_tab 4 (fun m => xorb (Nat.testbit m 0) (Nat.testbit m 1) || (Nat.testbit m 2 && negb (Nat.testbit m 3))).
Example C27_nonvacuous : tt_wf isop_demo /\ nv isop_demo = 4 /\ isop isop_demo = Some [Cube 4 12; Cube 1 3; Cube 2 3].
Proof. split; [apply tab_wf|]. split; vm_compute; reflexivity. Qed.

(* The clauses derived from the covers of a function and of its complement:
   every clause holds exactly if variable n has the value of the function. *)
Theorem C27_characteristic t : tt_wf t -> nv t < 32 ->
  exists cs, cnf_characteristic t = Some cs /\
    forall x, (forall c, c ∈ cs -> clause_on c x) <-> x (nv t) = tt_eval t x.
Proof.
  intros Ht _. destruct (cnf_characteristic_spec t Ht) as (cs & E & _ & Hs). exists cs. split; [done|]. exact Hs.
Qed.
Print Assumptions C27_characteristic.

(* ---- C29: CNF generation ---- *)
(* each clause set describes its gate *)
Theorem C29_gates x a b c d :
  (cnf_sat x (on_and c a b) <-> lit_val x c = lit_val x a && lit_val x b) /\
  (cnf_sat x (on_or c a b) <-> lit_val x c = lit_val x a || lit_val x b) /\
  (cnf_sat x (on_xor c a b) <-> lit_val x c = xorb (lit_val x a) (lit_val x b)) /\
  (cnf_sat x (on_maj d a b c) <->
     lit_val x d = (lit_val x a && lit_val x b) || (lit_val x a && lit_val x c) || (lit_val x b && lit_val x c)) /\
  (cnf_sat x (on_xor3 d a b c) <-> lit_val x d = xorb (lit_val x a) (xorb (lit_val x b) (lit_val x c))) /\
  (cnf_sat x (on_ite d a b c) <-> lit_val x d = if lit_val x a then lit_val x b else lit_val x c).
Proof.
  split; [apply on_and_spec|]. split; [apply on_or_spec|]. split; [apply on_xor_spec|]. split; [apply on_maj_spec|].
  split; [apply on_xor3_spec|apply on_ite_spec].
Qed.
Print Assumptions C29_gates.

Theorem C29_function f ls t : tt_wf t -> nv t = length ls -> nv t < 32 ->
  exists cls, on_function f ls t = Some cls /\
    forall x, cnf_sat x cls <->
      lit_val x f = tt_eval t (fun k => match ls !! k with Some l => lit_val x l | None => false end).
Proof.
  intros Ht Hn _. destruct (on_function_spec f ls t Ht Hn) as (cls & E & Hs). exists cls. split; [done|].
  intros x. rewrite Hs. done.
Qed.
Print Assumptions C29_function.
Example C29_function_nonvacuous : tt_wf (tt_tab 3 (fun m => m <? 3)) /\
  option_map length (on_function 9 [2; 4; 7]%N (tt_tab 3 (fun m => m <? 3))) = Some 4.
Proof. split; [apply tab_wf|]. vm_compute. reflexivity. Qed.

(* With the default literals, the assignments that satisfy the clauses are
   exactly the node values of the network, whatever the inputs. *)
Theorem C29_default s offset : network s -> alive s -> is_combinational s = true ->
  (forall o, offset = Some o -> npi s < o) ->
  exists lits cls os, node_literals s offset = Some lits /\ generate_cnf s lits = Some (cls, os) /\
    cnf_exact s lits cls os.
Proof.
  intros W Ha Hc Ho. apply bool_decide_eq_true in Hc as [Hi _]. by apply default_cnf_exact.
Qed.
Print Assumptions C29_default.

Theorem C29_lut_default s offset : kreachable s -> knpi s = length (kins s) ->
  (forall o, offset = Some o -> knpi s < o) ->
  exists lits cls os, knode_literals s offset = Some lits /\ kgenerate_cnf s lits = Some (cls, os) /\
    kcnf_exact s lits cls os.
Proof. intros R. by apply kdefault_cnf_exact, kreachable_wf. Qed.
Print Assumptions C29_lut_default.

(* Any literals may be used for the nodes. *)
Theorem C29_any_literals s lits : network s -> alive s -> length lits = size s ->
  exists cls os, generate_cnf s lits = Some (cls, os) /\ length os = npo s /\
    forall x, let val n := match lits !! n with Some l => lit_val x l | None => false end in
      (cnf_sat x cls <-> exists env, valuation s env val) /\
      forall i f l, pos s !! i = Some f -> os !! i = Some l -> lit_val x l = sval val f.
Proof.
  intros W Ha Hl. destruct (generate_cnf_spec s lits W Ha Hl) as (cls & os & E & HO & Hs & _).
  exists cls, os. split; [done|]. split.
  { apply Forall2_length in HO. rewrite <- HO. unfold pos. rewrite take_length. pose proof (net_npo _ W). lia. }
  intros x val. change val with (lits_val x lits). split.
  - rewrite Hs. split; [by eexists|]. intros (env & V). split; [apply V| |apply V].
    intros k n Hk. by rewrite Hk.
  - intros i f l Hf Hos. exact (Forall2_lookup_lr _ _ _ _ _ _ HO Hf Hos x).
Qed.
Print Assumptions C29_any_literals.

Example C29_nonvacuous : network skewed /\ alive skewed2 /\ network skewed2 /\ is_combinational skewed2 = true /\
  option_map length (node_literals skewed2 (Some 20)) = Some 8.
Proof.
  split; [apply skewed_network|]. split; [|split; [apply skewed2_network|]; vm_compute; done].
  intros n (a & b & E & _). assert (Hn : n < 8) by (by apply lookup_lt_Some in E).
  do 8 (destruct n as [|n]; [vm_compute; reflexivity|]). lia.
Qed.
Example C29_lut_nonvacuous : exists s, kreachable s /\ knpi s = length (kins s) /\ ksize s = 9 /\
  option_map length (knode_literals s (Some 20)) = Some 9.
Proof.
  exists (kdemo [KPi; KPi; KPi; KLut [4; 2; 3] (tt_tab 3 (fun m => Nat.odd (m / 3))); KIte 5 1 3; KMaj 2 5 6; KNot 7; KPo 7; KPo 8]).
  split; [apply kdemo_reachable; vm_compute; by eexists|]. split; [vm_compute; reflexivity|].
  split; vm_compute; reflexivity.
Qed.

(* Register outputs are not numbered: they share the literal of constant 0, so
   in a sequential network assignments with a register at 1 are lost. *)
Theorem C29_sequential_refuted : exists s lits cls os l, reachable s /\
  node_literals s None = Some lits /\ generate_cnf s lits = Some (cls, os) /\ os = [l] /\
  (exists env, computes s env [true]) /\ forall x, cnf_sat x cls -> lit_val x l = false.
Proof.
  set (s := build [OpPi; OpRo; OpAnd (Sig 1 false) (Sig 2 false); OpPo (Sig 3 false); OpRi (Sig 3 false) 0%Z]).
  assert (R : reachable s) by (apply build_reachable; vm_compute; reflexivity).
  exists s, [0; 2; 0; 4]%N, [[1]; [2; 5]; [0; 5]; [3; 1; 4]]%N, [4]%N, 4%N.
  split; [done|]. split; [vm_compute; reflexivity|]. split; [vm_compute; reflexivity|]. split; [done|]. split.
  - exists (fun _ => true), (ev s (fun _ => true)). split; [by apply ev_valuation, reachable_wf|]. vm_compute. reflexivity.
  - intros x Hx. apply cls_b_spec in Hx. unfold cls_b, lit_val in *. cbn -[lit_var] in *.
    change (lit_var 5) with 2 in *. change (lit_var 4) with 2. change (lit_var 0) with 0 in *. change (lit_var 1) with 0 in *.
    destruct (x 0), (x 2); try done; by rewrite ?andb_false_r in Hx.
Qed.
Print Assumptions C29_sequential_refuted.

(* ---- C30: equivalence checking ---- *)
(* A verdict is right: "true" if the output is 0 for all inputs, "false" with
   inputs that make the output 1; no verdict only if the solver gives up. *)
Theorem C30_verdict solve s r cex : correct_solver solve ->
  network s -> alive s -> is_combinational s = true -> npo s = 1 ->
  equivalence_checking solve s = Some (r, cex) ->
    (r = Some true -> forall env, computes s env [false]) /\
    (r = Some false -> length cex = npi s /\ computes s (fun k => nth k cex false) [true]) /\
    (complete_solver solve -> r <> None).
Proof. intros Hs W Ha Hc Hp. apply bool_decide_eq_true in Hc as [Hi _]. by apply ec_sound. Qed.
Print Assumptions C30_verdict.

(* With several outputs there is no verdict. *)
Theorem C30_outputs solve s : npo s <> 1 -> equivalence_checking solve s = Some (None, []).
Proof. intros H. unfold equivalence_checking. by rewrite decide_False. Qed.
Print Assumptions C30_outputs.

(* The checker gets through iff there is a gate, no input, or the output is the
   constant 0; otherwise it asks the solver about a variable it does not know. *)
Theorem C30_completes solve s : correct_solver solve -> complete_solver solve ->
  network s -> alive s -> is_combinational s = true -> npo s = 1 ->
  (equivalence_checking solve s <> None <-> (exists n, is_gate s n) \/ npi s = 0 \/ pos s = [Sig 0 false]).
Proof.
  intros Hs Hcs W Ha Hc Hp. apply bool_decide_eq_true in Hc as [Hi _]. split.
  - intros Hn. destruct (decide (npi s = 0)) as [|Hi0]; [by right; left|].
    destruct (decide (pos s = [Sig 0 false])) as [|Hf]; [by right; right|]. left.
    destruct (gates_spec s W Ha) as (gs & _ & _ & Hgs).
    destruct gs as [|n gs]; [|exists n; apply Hgs, elem_of_list_here].
    destruct Hn. apply ec_fails; try done. intros n Hn%Hgs. by apply elem_of_nil in Hn.
  - intros H. destruct (ec_total solve s Hs W Ha (eq_sym Hi) Hp H) as (r & cex & ->). done.
Qed.
Print Assumptions C30_completes.

Lemma sum_le {A} (f : A -> nat) k l : (forall x, f x <= k) -> sum_list (map f l) <= k * length l.
Proof. intros H. induction l as [|x l IH]; cbn; [lia|]. specialize (H x). lia. Qed.
Lemma small_alive s : reachable s -> (N.of_nat (2 * size s + length (outs s)) < 2 ^ 31)%N -> alive s.
Proof.
  intros R Hs n (a & b & E & _). apply never_dead; [done|by apply lookup_lt_Some in E|].
  eapply N.le_lt_trans; [|exact Hs].
  assert (references s n <= 2 * size s + length (outs s)); [|lia].
  assert (Hc : forall f, count_sig n f <= 1) by (intros f; unfold count_sig; case_decide; lia).
  unfold references. apply Nat.add_le_mono.
  - apply (sum_le (gate_refs n) 2). intros [x y]. unfold gate_refs. case_decide; [lia|]. cbn. pose proof (Hc x). pose proof (Hc y). lia.
  - etransitivity; [apply (sum_le (count_sig n) 1); done|lia].
Qed.

(* Checking a miter compares the two networks. *)
Theorem C30_miter solve nb s1 s2 d r cex : correct_solver solve -> 0 < nb ->
  network s1 -> network s2 -> is_combinational s1 = true -> is_combinational s2 = true ->
  miter nb s1 s2 = Some (Some d) -> (N.of_nat (2 * size d + length (outs d)) < 2 ^ 31)%N ->
  equivalence_checking solve d = Some (r, cex) ->
    (r = Some true -> forall env l1 l2, computes s1 env l1 -> computes s2 env l2 -> l1 = l2) /\
    (r = Some false -> length cex = npi s1 /\
       forall l1 l2, computes s1 (fun k => nth k cex false) l1 -> computes s2 (fun k => nth k cex false) l2 -> l1 <> l2) /\
    (complete_solver solve -> r <> None).
Proof.
  intros Hs Hnb W1 W2 Hc1 Hc2 Hm Hsm He.
  destruct (C28_miter nb s1 s2 Hnb W1 W2 Hc1 Hc2) as [Hne Heq].
  destruct (decide (npi s1 = npi s2)) as [Hi|Hi]; [|rewrite Hne in Hm by auto; done].
  destruct (decide (npo s1 = npo s2)) as [Ho|Ho]; [|rewrite Hne in Hm by auto; done].
  destruct (Heq Hi Ho) as (d' & Hm' & R & Hcd & Hpi & Hpo & Hf). rewrite Hm in Hm'. injection Hm' as <-.
  destruct (C30_verdict solve d r cex Hs (wf_network _ (reachable_wf _ R)) (small_alive _ R Hsm) Hcd Hpo He) as (V1 & V2 & V3).
  split; [|split; [|done]].
  - intros Hr env l1 l2 H1 H2. apply (Hf env l1 l2 H1 H2). by apply V1.
  - intros Hr. destruct (V2 Hr) as [Hl Hv]. split; [congruence|]. intros l1 l2 H1 H2. by apply (Hf _ l1 l2 H1 H2).
Qed.
Print Assumptions C30_miter.

(* solvers that meet the hypotheses exist *)
Example C30_solver : correct_solver brute /\ complete_solver brute.
Proof. apply brute_correct. Qed.

(* two inequivalent networks; a gateless miter *)
Example C30_nonvacuous :
  (exists d, miter 1 comb comb = Some (Some d) /\ option_map fst (equivalence_checking brute d) = Some (Some true)) /\
  (exists s, reachable s /\ alive s /\ npo s = 1 /\ equivalence_checking brute s = Some (Some false, [true; false])).
Proof.
  split.
  - eexists. split; vm_compute; reflexivity.
  - set (s := build [OpPi; OpPi; OpAnd (Sig 1 false) (Sig 2 true); OpPo (Sig 3 false)]).
    assert (R : reachable s) by (apply build_reachable; vm_compute; reflexivity).
    exists s. split; [done|]. split; [apply small_alive; [done|vm_compute; reflexivity]|]. split; vm_compute; reflexivity.
Qed.

(* a miter of two one-gate-free networks on which the checker fails: x0 against 0 *)
Theorem C30_gateless_refuted : exists s1 s2 d, reachable s1 /\ reachable s2 /\ miter 1 s1 s2 = Some (Some d) /\
  forall solve, equivalence_checking solve d = None.
Proof.
  exists (build [OpPi; OpPo (Sig 1 false)]), (build [OpPi; OpPo (Sig 0 false)]).
  eexists. split; [apply build_reachable; vm_compute; reflexivity|]. split; [apply build_reachable; vm_compute; reflexivity|].
  split; [vm_compute; reflexivity|]. intros solve. vm_compute. reflexivity.
Qed.
Print Assumptions C30_gateless_refuted.
