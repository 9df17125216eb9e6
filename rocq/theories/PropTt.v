(* Properties C13 (truth_table_cache.hpp) and C43 (range.hpp). *)
From Verif Require Import Base Tt TtProofs TtCache TtCacheProofs Range RangeProofs.

(* ---- C13 ---- *)
Theorem C13_reads_back h c t l :
  cache_hist h c -> (N.of_nat (length (cdata c)) <= 2 ^ 31)%N -> (t, l) ∈ h ->
  cache_get l c = Some t /\ cache_get (N.lxor l 1) c = Some (tt_not t).
Proof. exact (cache_reads_back h c t l). Qed.
Print Assumptions C13_reads_back.

Theorem C13_canonical h c s t k l :
  cache_hist h c -> (N.of_nat (length (cdata c)) <= 2 ^ 31)%N -> (s, k) ∈ h -> (t, l) ∈ h ->
  ((k / 2 = l / 2)%N <-> s = t \/ s = tt_not t) /\ (k = l <-> s = t).
Proof. exact (cache_canonical h c s t k l). Qed.
Print Assumptions C13_canonical.

(* the size bound holds for any history of at most 2^31 inserts *)
Theorem C13_bounded h c : cache_hist h c -> length (cdata c) <= length h.
Proof. exact (cache_bounded h c). Qed.
Print Assumptions C13_bounded.

(* equality of well-formed tables is equality of functions *)
Theorem C13_tables_extensional s t : tt_wf s -> tt_wf t -> nv s = nv t ->
  (forall x, tt_eval s x = tt_eval t x) -> s = t.
Proof. exact (tt_ext s t). Qed.
Print Assumptions C13_tables_extensional.

Definition demo_xor := tt_tab 2 (fun m => (m =? 1) || (m =? 2)).
Definition demo_xnor := tt_not demo_xor.
Definition demo_cache : cache := (cache_insert (tt_var 3 1) (cache_insert demo_xor cache_empty).2).2.
Example C13_nonvacuous :
  cache_hist [(demo_xor, 0%N); (tt_var 3 1, 2%N); (demo_xnor, 1%N)] demo_cache /\ length (cdata demo_cache) = 2 /\
  demo_xnor <> demo_xor.
Proof.
  split; [|split; [vm_compute; reflexivity|vm_compute; congruence]].
  set (c1 := (cache_insert demo_xor cache_empty).2).
  assert (H1 : cache_hist [(demo_xor, 0%N)] c1).
  { apply (ch_insert [] cache_empty demo_xor 0%N); [constructor|apply tab_wf|vm_compute; reflexivity]. }
  assert (H2 : cache_hist [(demo_xor, 0%N); (tt_var 3 1, 2%N)] demo_cache).
  { apply (ch_insert [_] c1); [exact H1|apply tab_wf|vm_compute; reflexivity]. }
  apply (ch_insert [_; _] demo_cache); [exact H2|apply not_wf, tab_wf|vm_compute; reflexivity].
Qed.

(* ---- C43 ---- *)
Theorem C43_tree_reduce {A} (op : A -> A -> A) init l :
  (forall a b c, op a (op b c) = op (op a b) c) ->
  tree_reduce op init l = Some (seq_fold op init l).
Proof. exact (tree_reduce_fold op init l). Qed.
Print Assumptions C43_tree_reduce.

Theorem C43_ternary_tree_reduce {A} (op : A -> A -> A) init l :
  (forall a b c, op a (op b c) = op (op a b) c) -> (forall a, op init a = a) ->
  ternary_tree_reduce (fun a b c => op (op a b) c) init l = Some (seq_fold op init l).
Proof. exact (ternary_tree_reduce_fold op init l). Qed.
Print Assumptions C43_ternary_tree_reduce.

(* string concatenation: associative, not commutative *)
Example C43_nonvacuous :
  (forall a b c : list nat, a ++ (b ++ c) = (a ++ b) ++ c) /\
  tree_reduce app [9] [[1]; [2]; [3]; [4]; [5]; [6]; [7]] = Some [1; 2; 3; 4; 5; 6; 7] /\
  tree_reduce app [9] [] = Some [9].
Proof. split; [intros; apply app_assoc|]. split; vm_compute; reflexivity. Qed.
