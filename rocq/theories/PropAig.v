(* Properties C01-C09: the AIG creation API (aig_network.hpp, storage.hpp).
   [reachable]/[hist]: any sequence of creation calls; [valuation]: the meaning
   of a network (AigSem.v). *)
From Verif Require Import Base Aig AigSem AigApi Demo.

(* ---- C01: every constructor builds the function it is named after ---- *)
Theorem C01_constructors s o : reachable s -> Forall (valid s) (operands o) ->
  exists r s', step o s = Some (r, s') /\ valid s' r /\
  forall env v v' b, valuation s env v -> valuation s' env v' ->
    op_value o (sval v) = Some b -> sval v' r = b.
Proof. exact (constructors_correct s o). Qed.
Print Assumptions C01_constructors.

Theorem C01_meaning_exists s env : reachable s ->
  exists v, valuation s env v /\ forall v', valuation s env v' -> forall n, n < size s -> v' n = v n.
Proof. exact (valuations_exist s env). Qed.
Print Assumptions C01_meaning_exists.

Example C01_nonvacuous : reachable demo /\ size demo = 12 /\
  Forall (valid demo) (operands (OpMaj (Sig 4 true) (Sig 7 false) (Sig 11 true))).
Proof. split; [exact demo_reachable|]. split; [vm_compute; done|]. apply valid_check. vm_compute. reflexivity. Qed.

(* ---- C02: structural hashing ---- *)
Theorem C02_hashing_canonical s a b f s1 s2 :
  reachable s -> valid s a -> valid s b -> create_and a b s = Some (f, s1) -> later s1 s2 ->
  create_and a b s2 = Some (f, s2) /\ create_and b a s2 = Some (f, s2).
Proof. exact (hashing_canonical s a b f s1 s2). Qed.
Print Assumptions C02_hashing_canonical.

Theorem C02_no_duplicate_gates s n m a b :
  reachable s -> ks s !! n = Some (a, b) -> ks s !! m = Some (a, b) -> a <> b -> n = m.
Proof. exact (no_duplicate_gates s n m a b). Qed.
Print Assumptions C02_no_duplicate_gates.

Theorem C02_num_gates s : reachable s ->
  ne s = u64 (N.of_nat (length (filter (fun k : key => k.1 <> k.2) (ks s)))).
Proof. exact (num_gates_exact s). Qed.
Print Assumptions C02_num_gates.

Example C02_nonvacuous :
  let s1 := get_some (Sig 0 false, demo) (create_and (Sig 1 false) (Sig 9 true) demo) in
  let s2 := get_some ([], s1.2) (checked [OpXor (Sig 1 false) (Sig 12 false)] [] s1.2) in
  create_and (Sig 1 false) (Sig 9 true) demo = Some (s1.1, s1.2) /\
  size s1.2 = 13 /\ size s2.2 = 16 /\ later s1.2 s2.2 /\ ne demo = 7%N.
Proof.
  cbv zeta. split; [vm_compute; reflexivity|]. split; [vm_compute; reflexivity|].
  split; [vm_compute; reflexivity|]. split; [|vm_compute; reflexivity].
  set (s1 := (get_some _ (create_and _ _ _)).2).
  apply (later_check [OpXor (Sig 1 false) (Sig 12 false)] s1). vm_compute. reflexivity.
Qed.

(* ---- C03: creation never changes existing nodes ---- *)
Theorem C03_creation_frame s o r s' :
  reachable s -> Forall (valid s) (operands o) -> step o s = Some (r, s') ->
  (exists t, ks s' = ks s ++ t) /\ (exists t, ins s' = ins s ++ t) /\ (exists t, outs s' = outs s ++ t) /\
  (forall f env v v', valid s f -> valuation s env v -> valuation s' env v' ->
     valid s' f /\ sval v' f = sval v f).
Proof. exact (creation_frame s o r s'). Qed.
Print Assumptions C03_creation_frame.

Example C03_nonvacuous : reachable demo /\
  exists r, prod_map id size <$> step (OpXor3 (Sig 1 false) (Sig 7 true) (Sig 8 false)) demo = Some (r, 18).
Proof. split; [exact demo_reachable|]. eexists. vm_compute. reflexivity. Qed.

(* ---- C04: trivial ANDs and find_and ---- *)
Theorem C04_trivial_and s a b :
  reachable s -> valid s a -> valid s b ->
  (sidx a = sidx b \/ sidx a = 0 \/ sidx b = 0) ->
  exists f, create_and a b s = Some (f, s) /\
    (f = a \/ f = b \/ f = get_constant false) /\ find_and a b s = Some true.
Proof. exact (trivial_and s a b). Qed.
Print Assumptions C04_trivial_and.

Theorem C04_find_and_exact s a b f s' :
  reachable s -> valid s a -> valid s b -> create_and a b s = Some (f, s') ->
  (find_and a b s = Some true /\ s' = s) \/
  (find_and a b s = Some false /\ size s' = S (size s) /\ sidx f = size s).
Proof. exact (find_and_exact s a b f s'). Qed.
Print Assumptions C04_find_and_exact.

Example C04_both_cases :
  find_and (Sig 2 true) (Sig 1 false) demo = Some true /\
  find_and (Sig 2 false) (Sig 1 false) demo = Some false.
Proof. vm_compute. done. Qed.

(* ---- C05: the hash table holds exactly what was inserted and not erased ---- *)
Theorem C05_find_exact s L k : table_hist s L ->
  exists r, hash_find k s = Some r /\
    (r <> 0 -> r ∈ L /\ ks s !! r = Some k) /\
    (r = 0 -> forall i, i ∈ L -> ks s !! i <> Some k) /\
    (forall i, i ∈ L -> ks s !! i = Some k -> r = i).
Proof. exact (table_find_exact s L k). Qed.
Print Assumptions C05_find_exact.

Theorem C05_operations_succeed s L : table_hist s L ->
  (forall i k, ks s !! i = Some k -> i <> 0 -> i ∉ L -> is_Some (hash_insert k i s)) /\
  (forall i k, i ∈ L -> ks s !! i = Some k -> is_Some (hash_erase k s)) /\
  (forall sz, 0 < sz -> is_Some (hash_reserve sz s)).
Proof. exact (table_progress s L). Qed.
Print Assumptions C05_operations_succeed.

Theorem C05_count s L : table_hist s L -> NoDup L /\ ne s = u64 (N.of_nat (length L)).
Proof. exact (table_count s L). Qed.
Print Assumptions C05_count.

(* A table with one bucket: three keys share a chain, the middle one is erased,
   and an insertion that triggers growth follows. *)
Definition one_bucket : aig :=
  Aig [(Sig 0 false, Sig 0 false); (Sig 0 false, Sig 0 false); (Sig 0 true, Sig 0 true);
       (Sig 1 false, Sig 2 false); (Sig 1 true, Sig 2 false); (Sig 1 false, Sig 2 true);
       (Sig 1 true, Sig 2 true)]
      [0;0;0;0;0;0;0] [] [] [1;2] [] 2 0 [] [0] 0%N.
Example C05_nonvacuous : exists s, table_hist s [6; 5; 3] /\ length (hs s) = 3 /\
  hash_find (Sig 1 true, Sig 2 false) s = Some 0.
Proof.
  assert (H : table_hist one_bucket []) by (apply (th_empty _ 1); [lia|done..]).
  eapply (th_insert _ _ 3) in H; [|vm_compute; reflexivity|done|set_solver|set_solver|vm_compute; reflexivity].
  eapply (th_insert _ _ 4) in H; [|vm_compute; reflexivity|done|set_solver|
    by intros j ->%elem_of_list_singleton|vm_compute; reflexivity].
  eapply (th_insert _ _ 5) in H; [|vm_compute; reflexivity|done|set_solver|
    by intros j [->| ->%elem_of_list_singleton]%elem_of_cons|vm_compute; reflexivity].
  eapply (th_insert _ _ 6) in H; [|vm_compute; reflexivity|done|set_solver|
    by intros j [->|[->| ->%elem_of_list_singleton]%elem_of_cons]%elem_of_cons|vm_compute; reflexivity].
  eapply (th_erase _ _ 4) in H; [|set_solver|vm_compute; reflexivity|vm_compute; reflexivity].
  eexists. split; [exact H|]. vm_compute. done.
Qed.

(* ---- C06: fanout counts ---- *)
Theorem C06_fanout_exact s n : reachable s -> n < size s ->
  fanout_size s n = Some (N.of_nat (references s n) mod 2 ^ 31)%N.
Proof. exact (fanout_exact s n). Qed.
Print Assumptions C06_fanout_exact.

Theorem C06_never_dead s n : reachable s -> n < size s ->
  (N.of_nat (references s n) < 2 ^ 31)%N -> is_dead s n = Some false.
Proof. exact (never_dead s n). Qed.
Print Assumptions C06_never_dead.

Example C06_nonvacuous : references demo 4 = 3 /\ fanout_size demo 4 = Some 3%N /\ fanout_size demo 7 = Some 1%N.
Proof. vm_compute. done. Qed.

(* ---- C07: the phase flag is the value under the all-zero input ---- *)
Theorem C07_phase_exact s n p v : reachable s -> ph s !! n = Some p ->
  valuation s (fun _ => false) v -> p = v n.
Proof. exact (phase_exact s n p v). Qed.
Print Assumptions C07_phase_exact.

Theorem C07_phase_defined s n : reachable s -> n < size s -> is_Some (ph s !! n).
Proof. exact (phase_defined s n). Qed.
Print Assumptions C07_phase_defined.

Example C07_nonvacuous : exists n m, ph demo !! n = Some true /\ ph demo !! m = Some false /\
  is_gate demo n /\ is_gate demo m.
Proof. exists 7, 4. repeat split; try (vm_compute; reflexivity); do 2 eexists; vm_compute; done. Qed.

(* ---- C08: fanins precede their gate, in canonical order ---- *)
Theorem C08_topological s n a b : reachable s -> ks s !! n = Some (a, b) -> a <> b ->
  0 < sidx a /\ sidx a < sidx b /\ sidx b < n.
Proof. exact (topological s n a b). Qed.
Print Assumptions C08_topological.

Example C08_nonvacuous : ks demo !! 7 = Some (Sig 5 true, Sig 6 true).
Proof. vm_compute. done. Qed.

(* ---- C09: numbering of inputs and outputs ---- *)
Theorem C09_io_lists h s : hist h s ->
  ins s = map sidx (results is_in_op h) /\ outs s = results is_out_op h /\
  npi s = length (results is_pi_op h) /\ npo s = length (results is_po_op h).
Proof. exact (hist_io h s). Qed.
Print Assumptions C09_io_lists.

Theorem C09_ci_index_inverse s k n : reachable s -> ci_at s k = Some n -> ci_index s n = Some k.
Proof. exact (ci_index_inverse s k n). Qed.
Print Assumptions C09_ci_index_inverse.

Theorem C09_pi_numbering h s : hist h s -> calls_before is_pi_op is_ro_op h ->
  (forall k, pi_at s k = sidx <$> results is_pi_op h !! k) /\
  (forall k, ro_at s k = sidx <$> results is_ro_op h !! k) /\
  (forall n, n <> 0 -> n < size s ->
     is_pi s n = Some (bool_decide (n ∈ map sidx (results is_pi_op h))) /\
     is_ro s n = Some (bool_decide (n ∈ map sidx (results is_ro_op h)))).
Proof. exact (pi_numbering h s). Qed.
Print Assumptions C09_pi_numbering.

Theorem C09_po_numbering h s : hist h s -> calls_before is_po_op is_ri_op h ->
  (forall k, po_at s k = results is_po_op h !! k) /\ (forall k, ri_at s k = results is_ri_op h !! k).
Proof. exact (po_numbering h s). Qed.
Print Assumptions C09_po_numbering.

Example C09_nonvacuous : hist demo_hist demo /\ calls_before is_pi_op is_ro_op demo_hist /\
  calls_before is_po_op is_ri_op demo_hist /\ length (results is_in_op demo_hist) = 4.
Proof.
  split; [exact demo_hist_ok|].
  assert (E : forall p q, (forall i j, i < 9 -> j < 9 ->
     (match demo_hist !! i with Some x => p x.1 | None => false end = true) ->
     (match demo_hist !! j with Some x => q x.1 | None => false end = true) -> i < j) ->
     calls_before p q demo_hist).
  { intros p q H i j x y Hi Hj Hp Hq.
    assert (i < 9 /\ j < 9) as [? ?]
      by (apply lookup_lt_Some in Hi, Hj; vm_compute in Hi, Hj; lia).
    apply H; [lia|lia|by rewrite Hi|by rewrite Hj]. }
  split; [|split; [|vm_compute; done]]; apply E;
    intros i j Hi Hj; do 9 (destruct i as [|i]; [do 9 (destruct j as [|j]; [vm_compute; (done || lia)|]); lia|]); lia.
Qed.

(* Findings.  Without the ordering hypothesis the numbering is wrong: after
   create_ro, create_pi the register output is reported as the primary input
   and the primary input as a register output. *)
Theorem C09_pi_after_ro_refuted : exists h s, hist h s /\
  results is_pi_op h = [Sig 2 false] /\ results is_ro_op h = [Sig 1 false] /\
  pi_at s 0 = Some 1 /\ is_pi s 1 = Some true /\ is_pi s 2 = Some false /\ ro_at s 0 = Some 2.
Proof.
  exists (build_hist [OpRo; OpPi]), (build [OpRo; OpPi]).
  split; [apply build_hist_ok; vm_compute; reflexivity|]. vm_compute. done.
Qed.
Print Assumptions C09_pi_after_ro_refuted.

(* The constant node is reported as an input. *)
Theorem C09_constant_is_pi_refuted : exists s, reachable s /\ is_pi s 0 = Some true /\ 0 ∉ ins s.
Proof.
  exists (build [OpPi]). split; [apply build_reachable; vm_compute; reflexivity|].
  split; [vm_compute; done|]. vm_compute. set_solver.
Qed.
Print Assumptions C09_constant_is_pi_refuted.
