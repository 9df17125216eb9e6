From Verif Require Import Base Range.

Lemma fold_left_assoc {A} (op : A -> A -> A) l x y :
  (forall a b c, op a (op b c) = op (op a b) c) ->
  fold_left op l (op x y) = op x (fold_left op l y).
Proof.
  intros Ha. revert y. induction l as [|z l IH]; intros y; cbn; [done|]. by rewrite <- Ha, IH.
Qed.

Lemma seq_fold_app {A} (op : A -> A -> A) init l1 l2 :
  (forall a b c, op a (op b c) = op (op a b) c) -> l1 <> [] -> l2 <> [] ->
  seq_fold op init (l1 ++ l2) = op (seq_fold op init l1) (seq_fold op init l2).
Proof.
  intros Ha H1 H2. destruct l1 as [|x l1]; [done|]. destruct l2 as [|y l2]; [done|]. cbn.
  rewrite fold_left_app. cbn. by rewrite fold_left_assoc.
Qed.

Lemma take_nonempty {A} (l : list A) m : 0 < m -> l <> [] -> take m l <> [].
Proof. destruct m, l; try done; lia. Qed.
Lemma drop_nonempty {A} (l : list A) m : m < length l -> drop m l <> [].
Proof. intros H E. apply (f_equal length) in E. rewrite drop_length in E. cbn in E. lia. Qed.

Lemma tree_reduce_f_fold {A} (op : A -> A -> A) init :
  (forall a b c, op a (op b c) = op (op a b) c) ->
  forall fuel l, length l < fuel -> tree_reduce_f fuel op init l = Some (seq_fold op init l).
Proof.
  intros Ha fuel. induction fuel as [|fuel IH]; intros l Hl; [lia|].
  destruct l as [|x [|y [|z r]]]; try done.
  set (l := x :: y :: z :: r) in *.
  assert (3 <= length l) by (cbn; lia).
  change (tree_reduce_f (S fuel) op init l) with
    (a ← tree_reduce_f fuel op init (take (length l / 2) l);
     b ← tree_reduce_f fuel op init (drop (length l / 2) l); Some (op a b)).
  assert (1 <= length l / 2 < length l).
  { split; [apply Nat.div_le_lower_bound; lia|apply Nat.div_lt; lia]. }
  rewrite !IH by (rewrite ?take_length, ?drop_length; lia). cbn [mbind option_bind].
  rewrite <- seq_fold_app; [by rewrite take_drop|done| |].
  - apply take_nonempty; [lia|done].
  - apply drop_nonempty. lia.
Qed.

Lemma tree_reduce_fold {A} (op : A -> A -> A) init l :
  (forall a b c, op a (op b c) = op (op a b) c) ->
  tree_reduce op init l = Some (seq_fold op init l).
Proof. intros Ha. apply tree_reduce_f_fold; [done|lia]. Qed.

Lemma ternary_f_fold {A} (op : A -> A -> A) init :
  (forall a b c, op a (op b c) = op (op a b) c) -> (forall a, op init a = a) ->
  forall fuel l, length l < fuel ->
  ternary_tree_reduce_f fuel (fun a b c => op (op a b) c) init l = Some (seq_fold op init l).
Proof.
  intros Ha Hi fuel. induction fuel as [|fuel IH]; intros l Hl; [lia|].
  destruct l as [|x [|y [|z [|w r]]]]; cbn [ternary_tree_reduce_f]; try done.
  { cbn. by rewrite Hi. }
  set (l := x :: y :: z :: w :: r) in *.
  assert (4 <= length l) by (cbn; lia).
  set (m1 := length l / 3). set (m2 := (length l - m1) / 2).
  assert (1 <= m1 <= length l / 3) by (split; [apply Nat.div_le_lower_bound; lia|unfold m1; lia]).
  assert (m1 * 3 <= length l) by (unfold m1; rewrite Nat.mul_comm; apply Nat.mul_div_le; lia).
  assert (m2 * 2 <= length l - m1) by (unfold m2; rewrite Nat.mul_comm; apply Nat.mul_div_le; lia).
  assert (1 <= m2) by (apply Nat.div_le_lower_bound; lia).
  rewrite !IH by (rewrite ?take_length, ?drop_length; lia).
  cbn [mbind option_bind]. f_equal.
  rewrite <- seq_fold_app; [|done|apply take_nonempty; [lia|done]|].
  2: { apply take_nonempty; [lia|]. apply drop_nonempty. lia. }
  rewrite <- seq_fold_app; [|done| |apply drop_nonempty; lia].
  2: { intros E. apply app_nil in E as [E _]. revert E. apply take_nonempty; [lia|done]. }
  rewrite <- app_assoc, <- drop_drop, take_drop, take_drop. done.
Qed.

Lemma ternary_tree_reduce_fold {A} (op : A -> A -> A) init l :
  (forall a b c, op a (op b c) = op (op a b) c) -> (forall a, op init a = a) ->
  ternary_tree_reduce (fun a b c => op (op a b) c) init l = Some (seq_fold op init l).
Proof. intros Ha Hi. apply ternary_f_fold; [done..|lia]. Qed.
