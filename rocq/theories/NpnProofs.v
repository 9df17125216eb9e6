From Coq Require Import Permutation.
From Verif Require Import Base Tt TtProofs Npn.

Definition swapped (l : list nat) (t : tt) : tt := foldl tt_swap_adj t l.
Definition flipped (l : list nat) (t : tt) : tt := foldl tt_flip t l.
Definition parity (l : list nat) (k : nat) : bool := foldl (fun b p => xorb b (bool_decide (p = k))) false l.
Definition pget (l : list nat) (i : nat) : nat := nth i l 0.

Lemma swapped_snoc l p t : swapped (l ++ [p]) t = tt_swap_adj (swapped l t) p.
Proof. unfold swapped. by rewrite foldl_app. Qed.
Lemma flipped_snoc l p t : flipped (l ++ [p]) t = tt_flip (flipped l t) p.
Proof. unfold flipped. by rewrite foldl_app. Qed.
Lemma parity_snoc l p k : parity (l ++ [p]) k = xorb (parity l k) (bool_decide (p = k)).
Proof. unfold parity. by rewrite foldl_app. Qed.
Lemma perm_snoc n l p : npn_perm n (l ++ [p]) = swap_entries (npn_perm n l) p.
Proof. unfold npn_perm. by rewrite foldl_app. Qed.

Lemma swap_entries_length l p : length (swap_entries l p) = length l.
Proof. unfold swap_entries. by rewrite map_length, seq_length. Qed.
Lemma perm_length n l : length (npn_perm n l) = n.
Proof.
  induction l as [|p l IH] using rev_ind; [apply seq_length|]. by rewrite perm_snoc, swap_entries_length.
Qed.
Lemma pget_swap l p i : i < length l -> S p < length l -> pget (swap_entries l p) i = pget l (swapv p (S p) i).
Proof.
  intros Hi Hp. unfold pget, swap_entries. rewrite (nth_indep _ 0 (nth (swapv p (S p) 0) l 0)) by (by rewrite map_length, seq_length).
  rewrite (map_nth (fun i => nth (swapv p (S p) i) l 0)). by rewrite seq_nth.
Qed.

Lemma swapped_nv l t : nv (swapped l t) = nv t.
Proof. induction l as [|p l IH] using rev_ind; [done|]. rewrite swapped_snoc. cbn. exact IH. Qed.
Lemma flipped_nv l t : nv (flipped l t) = nv t.
Proof. induction l as [|p l IH] using rev_ind; [done|]. rewrite flipped_snoc. cbn. exact IH. Qed.
Lemma swapped_wf l t : tt_wf t -> tt_wf (swapped l t).
Proof. intros. destruct l as [|p l _] using rev_ind; [done|]. rewrite swapped_snoc. apply swap_wf. Qed.
Lemma flipped_wf l t : tt_wf t -> tt_wf (flipped l t).
Proof. intros. destruct l as [|p l _] using rev_ind; [done|]. rewrite flipped_snoc. apply flip_wf. Qed.

Lemma eval_swapped l t x y : Forall (fun p => S p < nv t) l ->
  (forall i, i < nv t -> x i = y (pget (npn_perm (nv t) l) i)) -> tt_eval (swapped l t) x = tt_eval t y.
Proof.
  revert x. induction l as [|p l IH] using rev_ind; intros x Hl Hxy.
  { apply eval_ext. intros k Hk. rewrite (Hxy k Hk). unfold pget. cbn. by rewrite seq_nth. }
  apply Forall_app in Hl as [Hl Hp]. apply Forall_cons in Hp as [Hp _].
  rewrite swapped_snoc. unfold tt_swap_adj. rewrite eval_swap by (rewrite swapped_nv; lia). apply IH; [done|].
  intros i Hi. pose proof (swapv_lt p (S p) i (nv t) ltac:(lia) Hp Hi) as Hs.
  rewrite (Hxy _ Hs). rewrite perm_snoc, pget_swap by (rewrite perm_length; done). by rewrite swapv_invol.
Qed.
Lemma eval_flipped l t x : Forall (fun p => p < nv t) l -> tt_eval (flipped l t) x = tt_eval t (fun k => xorb (x k) (parity l k)).
Proof.
  revert x. induction l as [|p l IH] using rev_ind; intros x Hl.
  { apply eval_ext. intros k Hk. cbn. by rewrite xorb_false_r. }
  apply Forall_app in Hl as [Hl Hp]. apply Forall_cons in Hp as [Hp _].
  rewrite flipped_snoc, eval_flip by (by rewrite flipped_nv). rewrite IH by done. apply eval_ext. intros k Hk.
  rewrite parity_snoc. unfold upd_var. destruct (decide (k = p)) as [->|Hne].
  - rewrite bool_decide_eq_true_2 by done. by destruct (x p), (parity l p).
  - rewrite bool_decide_eq_false_2 by done. by rewrite xorb_false_r.
Qed.

Lemma phase_bit n inv l k : Forall (fun p => p < n) l -> k <= n ->
  N.testbit (npn_phase n inv l) (N.of_nat k) = if decide (k = n) then inv else parity l k.
Proof.
  intros Hl Hk. unfold npn_phase. induction l as [|p l IH] using rev_ind.
  { cbn. destruct (decide (k = n)) as [->|Hne].
    - rewrite N.shiftl_spec_high' by lia. replace (N.of_nat n - N.of_nat n)%N with 0%N by lia. by destruct inv.
    - rewrite N.shiftl_spec_low by lia. done. }
  apply Forall_app in Hl as [Hl Hp]. apply Forall_cons in Hp as [Hp _]. rewrite foldl_app. cbn [foldl].
  rewrite N.lxor_spec, IH by done. rewrite parity_snoc.
  replace (N.testbit (N.shiftl 1 (N.of_nat p)) (N.of_nat k)) with (bool_decide (p = k)).
  - destruct (decide (k = n)) as [->|]; [|done]. rewrite bool_decide_eq_false_2 by lia. by rewrite xorb_false_r.
  - destruct (decide (p = k)) as [->|Hne].
    + rewrite bool_decide_eq_true_2 by done. rewrite N.shiftl_spec_high' by lia. by rewrite N.sub_diag.
    + rewrite bool_decide_eq_false_2 by done. destruct (decide (k < p)).
      * by rewrite N.shiftl_spec_low by lia.
      * rewrite N.shiftl_spec_high' by lia. destruct (N.of_nat k - N.of_nat p)%N eqn:E; [lia|]. by destruct p0.
Qed.

Lemma not_swap t p : tt_wf t -> S p < nv t -> tt_swap_adj (tt_not t) p = tt_not (tt_swap_adj t p).
Proof.
  intros Hw Hp. apply tt_ext; [apply swap_wf|apply not_wf, swap_wf|done|]. intros x. unfold tt_swap_adj.
  rewrite eval_swap by (cbn; lia). rewrite !eval_not by (done || apply swap_wf). by rewrite eval_swap by lia.
Qed.
Lemma not_flip t p : tt_wf t -> p < nv t -> tt_flip (tt_not t) p = tt_not (tt_flip t p).
Proof.
  intros Hw Hp. apply tt_ext; [apply flip_wf|apply not_wf, flip_wf|done|]. intros x.
  rewrite eval_flip by done. rewrite !eval_not by (done || apply flip_wf). by rewrite eval_flip.
Qed.
Lemma not_not t : tt_not (tt_not t) = t.
Proof.
  destruct t as [n l]. unfold tt_not. cbn. f_equal. rewrite map_map. rewrite (map_ext _ id); [by rewrite map_id|]. by intros [].
Qed.

(* numbers *)
Lemma bits_num_inj l1 l2 : length l1 = length l2 -> bits_num l1 = bits_num l2 -> l1 = l2.
Proof.
  revert l2. induction l1 as [|b l1 IH]; intros [|c l2]; try done. cbn [length bits_num]. intros [= Hl] E.
  assert (b = c) as -> by (destruct b, c; unfold N.b2n in E; lia || done). f_equal. apply IH; [done|]. lia.
Qed.
Lemma tt_num_inj t u : tt_wf t -> tt_wf u -> nv t = nv u -> tt_num t = tt_num u -> t = u.
Proof.
  intros Wt Wu Hn E. destruct t as [n l], u as [m k]. unfold tt_wf in *. cbn in *. subst m. f_equal.
  apply bits_num_inj; [congruence|done].
Qed.

Section canon.
Context (n : nat) (swaps flips : list nat).
Context (Hsw : Forall (fun p => S p < n) swaps) (Hfl : Forall (fun p => p < n) flips) (Hn : 1 < n).
Context (Hback : npn_perm n (swaps ++ [0]) = seq 0 n).
Context (t : tt) (Ht : tt_wf t) (Hnv : nv t = n).

Definition X (k l : nat) : tt := swapped (take k swaps) (flipped (take l flips) t).
Lemma X_wf k l : tt_wf (X k l).
Proof. by apply swapped_wf, flipped_wf. Qed.
Lemma X_nv k l : nv (X k l) = n.
Proof. unfold X. by rewrite swapped_nv, flipped_nv. Qed.

Lemma X_swap k l p : swaps !! k = Some p -> tt_swap_adj (X k l) p = X (S k) l.
Proof. intros E. unfold X. by rewrite (take_S_r swaps k p E), swapped_snoc. Qed.
Lemma X_flip l p : flips !! l = Some p -> tt_flip (tt_swap_adj (X (length swaps) l) 0) p = X 0 (S l).
Proof.
  intros E. unfold X. rewrite (take_S_r flips l p E), flipped_snoc, take_0. change (swapped [] ?u) with u. f_equal.
  rewrite firstn_all. rewrite <- swapped_snoc.
  assert (Hall : Forall (fun p => S p < n) (swaps ++ [0])) by (apply Forall_app; split; [done|]; constructor; [lia|constructor]).
  apply tt_ext; [by apply swapped_wf, flipped_wf|by apply flipped_wf|by rewrite swapped_nv|].
  intros x. apply eval_swapped; [by rewrite flipped_nv, Hnv|]. rewrite flipped_nv, Hnv, Hback. intros i Hi. unfold pget. by rewrite seq_nth.
Qed.

Definition seen (k l i j : nat) : Prop := (l < j /\ k <= length swaps) \/ (l = j /\ k <= i).
Record inv (i j : nat) (st : npn) : Prop := {
  in_t1 : np_t1 st = X i j;
  in_t2 : np_t2 st = tt_not (X i j);
  in_min : np_min st = tt_not_if (X (np_swap st) (np_flip st)) (np_inv st);
  in_least : forall k l, seen k l i j -> (tt_num (np_min st) <= tt_num (X k l))%N /\ (tt_num (np_min st) <= tt_num (tt_not (X k l)))%N
}.
Lemma tt_min_cases a b : (tt_min a b = a \/ tt_min a b = b) /\ (tt_num (tt_min a b) <= tt_num a)%N /\ (tt_num (tt_min a b) <= tt_num b)%N.
Proof. unfold tt_min, tt_lt. destruct (N.ltb_spec (tt_num b) (tt_num a)); (split; [auto|]); lia. Qed.

Lemma min_form Y m : m = Y \/ m = tt_not Y -> m = tt_not_if Y (bool_decide (m = tt_not Y)).
Proof.
  intros Hm. destruct (decide (m = tt_not Y)) as [E|E]; [by rewrite bool_decide_eq_true_2|].
  rewrite bool_decide_eq_false_2 by done. destruct Hm; [done|done].
Qed.

Lemma start_inv : inv 0 0 (npn_start t).
Proof.
  destruct (tt_min_cases t (tt_not t)) as (Hc & H1 & H2). split; cbn; [done|done| |].
  - by apply (min_form (X 0 0)).
  - intros k l [[? _]|[-> Hk]]; [lia|]. assert (k = 0) as -> by lia. done.
Qed.

(* one visit: the new pair is (i, j), everything else was seen *)
Lemma visit_inv i j st : np_t1 st = X i j -> np_t2 st = tt_not (X i j) ->
  np_min st = tt_not_if (X (np_swap st) (np_flip st)) (np_inv st) ->
  (forall k l, seen k l i j -> (k, l) <> (i, j) ->
     (tt_num (np_min st) <= tt_num (X k l))%N /\ (tt_num (np_min st) <= tt_num (tt_not (X k l)))%N) ->
  inv i j (npn_visit i j st).
Proof.
  destruct st as [t1 t2 m iv bs bf]. cbn. intros -> -> Hm Hl. unfold tt_lt.
  destruct (tt_min_cases (X i j) (tt_not (X i j))) as (Hc & H1 & H2).
  destruct (N.ltb_spec (tt_num (X i j)) (tt_num m)) as [L1|L1]; [|destruct (N.ltb_spec (tt_num (tt_not (X i j))) (tt_num m)) as [L2|L2]]; cbn [orb].
  1, 2: split; cbn; [done|done|by apply min_form|]; intros k l Hs; destruct (decide ((k, l) = (i, j))) as [[= -> ->]|Hne]; [done|];
    destruct (Hl k l Hs Hne); lia.
  split; cbn; [done|done|done|]. intros k l Hs. destruct (decide ((k, l) = (i, j))) as [[= -> ->]|Hne]; [done|]. by apply Hl.
Qed.

Lemma swaps_inv j st : inv 0 j st -> inv (length swaps) j (npn_swaps swaps j st).
Proof.
  intros H0. unfold npn_swaps.
  assert (G : forall k, k <= length swaps -> inv k j (foldl (fun st p => npn_visit (S p.1) j (npn_apply (fun t => tt_swap_adj t p.2) st)) st (take k (imap pair swaps)))).
  { induction k as [|k IH]; intros Hk; [by rewrite take_0|].
    destruct (lookup_lt_is_Some_2 swaps k ltac:(lia)) as [p Hp].
    rewrite (take_S_r (imap pair swaps) k (k, p)) by (by rewrite list_lookup_imap, Hp).
    rewrite foldl_app. cbn [foldl fst snd]. specialize (IH ltac:(lia)). destruct (foldl _ st (take k _)) as [t1 t2 m iv bs bf].
    destruct IH as [E1 E2 E3 E4]. cbn [np_t1 np_t2 np_min np_inv np_swap np_flip] in *. subst t1 t2.
    assert (Hpn : S p < n) by (by apply (proj1 (Forall_lookup _ _) Hsw k)).
    apply visit_inv; cbn.
    - by apply X_swap.
    - rewrite not_swap by (apply X_wf || by rewrite X_nv). f_equal. by apply X_swap.
    - done.
    - intros k' l' Hs Hne. apply E4. destruct Hs as [?|[-> ?]]; [by left|]. right. split; [done|]. destruct (decide (k' = S k)) as [->|]; [done|lia]. }
  specialize (G (length swaps) ltac:(lia)). rewrite take_ge in G by (by rewrite imap_length). exact G.
Qed.

Lemma flips_inv st : inv (length swaps) 0 st -> inv (length swaps) (length flips) (npn_flips swaps flips st).
Proof.
  intros H0. unfold npn_flips.
  assert (G : forall l, l <= length flips -> inv (length swaps) l (foldl (fun st p =>
    npn_swaps swaps (S p.1) (npn_visit 0 (S p.1) (npn_apply (fun t => tt_flip (tt_swap_adj t 0) p.2) st))) st (take l (imap pair flips)))).
  { induction l as [|l IH]; intros Hk; [by rewrite take_0|].
    destruct (lookup_lt_is_Some_2 flips l ltac:(lia)) as [p Hp].
    rewrite (take_S_r (imap pair flips) l (l, p)) by (by rewrite list_lookup_imap, Hp).
    rewrite foldl_app. cbn [foldl fst snd]. specialize (IH ltac:(lia)). destruct (foldl _ st (take l _)) as [t1 t2 m iv bs bf].
    destruct IH as [E1 E2 E3 E4]. cbn [np_t1 np_t2 np_min np_inv np_swap np_flip] in *. subst t1 t2.
    assert (Hpn : p < n) by (by apply (proj1 (Forall_lookup _ _) Hfl l)).
    apply swaps_inv. apply visit_inv; cbn.
    - by apply X_flip.
    - rewrite not_swap by (apply X_wf || (rewrite X_nv; lia)). rewrite not_flip by (apply swap_wf || (cbn; by rewrite X_nv)). f_equal. by apply X_flip.
    - done.
    - intros k' l' Hs Hne. apply E4. destruct Hs as [[Hl Hk']|[-> Hk']].
      + destruct (decide (l' = l)) as [->|]; [right; lia|left; lia].
      + assert (k' = 0) as -> by lia. done. }
  specialize (G (length flips) ltac:(lia)). rewrite take_ge in G by (by rewrite imap_length). exact G.
Qed.

Definition final : npn := npn_flips swaps flips (npn_swaps swaps 0 (npn_start t)).
Lemma final_inv : inv (length swaps) (length flips) final.
Proof. apply flips_inv, swaps_inv, start_inv. Qed.

(* what the configuration says *)
Lemma final_eval x y :
  let perm := npn_perm n (take (np_swap final) swaps) in
  let ph := npn_phase n (np_inv final) (take (np_flip final) flips) in
  (forall i, i < n -> x i = xorb (y (pget perm i)) (N.testbit ph (N.of_nat (pget perm i)))) ->
  (forall i, i < n -> pget perm i < n) ->
  tt_eval (np_min final) x = xorb (tt_eval t y) (N.testbit ph (N.of_nat n)).
Proof.
  intros perm ph Hx Hlt. rewrite (in_min _ _ _ final_inv), eval_not_if by apply X_wf.
  assert (Hf : Forall (fun p => p < n) (take (np_flip final) flips)) by (by apply Forall_take).
  unfold ph. rewrite phase_bit by (done || lia). rewrite decide_True by done. f_equal. unfold X.
  rewrite (eval_swapped _ _ _ (fun j => xorb (y j) (parity (take (np_flip final) flips) j))).
  - rewrite eval_flipped by (by rewrite Hnv). apply eval_ext. intros k _. destruct (y k), (parity _ k); done.
  - rewrite flipped_nv, Hnv. by apply Forall_take.
  - rewrite flipped_nv, Hnv. intros i Hi. rewrite (Hx i Hi). f_equal. fold perm.
    pose proof (Hlt i Hi) as Hp. unfold ph. rewrite phase_bit by (done || lia). by rewrite decide_False by lia.
Qed.
End canon.

(* the permutations reached *)
Lemma perm_bound n l : Forall (fun p => S p < n) l -> forall i, i < n -> pget (npn_perm n l) i < n.
Proof.
  induction l as [|p l IH] using rev_ind; intros Hl i Hi; [unfold pget; cbn; by rewrite seq_nth|].
  apply Forall_app in Hl as [Hl [Hp _]%Forall_cons]. rewrite perm_snoc, pget_swap by (by rewrite perm_length).
  apply IH; [done|]. apply swapv_lt; lia.
Qed.
Lemma perm_inj n l : Forall (fun p => S p < n) l -> forall i j, i < n -> j < n ->
  pget (npn_perm n l) i = pget (npn_perm n l) j -> i = j.
Proof.
  induction l as [|p l IH] using rev_ind; intros Hl i j Hi Hj E; [unfold pget in E; cbn in E; by rewrite !seq_nth in E|].
  apply Forall_app in Hl as [Hl [Hp _]%Forall_cons]. rewrite perm_snoc, !pget_swap in E by (by rewrite perm_length).
  apply IH in E; [|done|apply swapv_lt; lia|apply swapv_lt; lia].
  rewrite <- (swapv_invol p (S p) i), E. apply swapv_invol.
Qed.

(* all the permutations and phases are reached *)
Fixpoint all_lists {A} (alphabet : list A) (n : nat) : list (list A) :=
  match n with
  | 0 => [[]]
  | S n' => l ← all_lists alphabet n'; (fun a => a :: l) <$> alphabet
  end.
Lemma all_lists_elem {A} (alphabet l : list A) : Forall (fun a => a ∈ alphabet) l -> l ∈ all_lists alphabet (length l).
Proof.
  induction 1 as [|a l Ha Hl IH]; [by apply elem_of_list_singleton|].
  cbn [length all_lists]. apply elem_of_list_bind. exists l. split; [|done]. apply elem_of_list_fmap. by exists a.
Qed.
Fixpoint nodup_b (l : list nat) : bool :=
  match l with [] => true | a :: l' => negb (existsb (Nat.eqb a) l') && nodup_b l' end.
Lemma nodup_b_true l : NoDup l -> nodup_b l = true.
Proof.
  induction 1 as [|a l Ha Hl IH]; [done|]. cbn. rewrite IH, andb_true_r. apply negb_true_iff.
  apply not_true_is_false. intros E. apply existsb_exists in E as (b & Hb & ->%Nat.eqb_eq). by apply Ha, elem_of_list_In.
Qed.
Fixpoint list_eqb (l k : list nat) : bool :=
  match l, k with [], [] => true | a :: l', b :: k' => (a =? b) && list_eqb l' k' | _, _ => false end.
Lemma list_eqb_true l k : list_eqb l k = true -> l = k.
Proof. revert k. induction l as [|a l IH]; intros [|b k]; try done. cbn. intros [->%Nat.eqb_eq ->%IH]%andb_true_iff. done. Qed.
Definition all_perms (n : nat) (swaps : list nat) : bool :=
  let reached := map (fun k => npn_perm n (take k swaps)) (seq 0 (S (length swaps))) in
  forallb (fun p => negb (nodup_b p) || existsb (list_eqb p) reached) (all_lists (seq 0 n) n).
Definition all_phases (n : nat) (flips : list nat) : bool :=
  forallb (fun f => existsb (fun l => forallb (fun i => eqb (parity (take l flips) i) (nth i f false)) (seq 0 n)) (seq 0 (S (length flips))))
    (all_lists [false; true] n).

Lemma reach_perm n swaps pi : all_perms n swaps = true ->
  (forall i, i < n -> pi i < n) -> (forall i j, i < n -> j < n -> pi i = pi j -> i = j) ->
  exists k, k <= length swaps /\ forall i, i < n -> pget (npn_perm n (take k swaps)) i = pi i.
Proof.
  intros Hc Hlt Hinj. unfold all_perms in Hc. rewrite forallb_forall in Hc.
  pose proof (all_lists_elem (seq 0 n) (map pi (seq 0 n))) as He. rewrite map_length, seq_length in He.
  specialize (Hc (map pi (seq 0 n))). rewrite nodup_b_true in Hc.
  - cbn [negb orb] in Hc. destruct (proj1 (existsb_exists _ _) (Hc (proj1 (elem_of_list_In _ _) (He ltac:(
      apply Forall_forall; intros a (i & -> & Hi)%elem_of_list_fmap; apply elem_of_seq in Hi; apply elem_of_seq; specialize (Hlt i); lia)))))
      as (p & (k & <- & Hk)%in_map_iff & Ek%list_eqb_true).
    apply in_seq in Hk. exists k. split; [lia|]. intros i Hi. rewrite <- Ek. unfold pget.
    rewrite (nth_indep _ 0 (pi 0)) by (by rewrite map_length, seq_length). rewrite map_nth, seq_nth by done. done.
  - apply NoDup_fmap_2_strong; [|apply NoDup_seq]. intros i j Hi Hj. apply elem_of_seq in Hi, Hj. apply Hinj; lia.
Qed.
Lemma reach_phase n flips phi : all_phases n flips = true ->
  exists l, l <= length flips /\ forall i, i < n -> parity (take l flips) i = phi i.
Proof.
  intros Hc. unfold all_phases in Hc. rewrite forallb_forall in Hc.
  pose proof (all_lists_elem [false; true] (map phi (seq 0 n))) as He. rewrite map_length, seq_length in He.
  destruct (proj1 (existsb_exists _ _) (Hc (map phi (seq 0 n)) (proj1 (elem_of_list_In _ _) (He ltac:(
      apply Forall_forall; intros a _; destruct a; [right; left|left]))))) as (l & Hl%in_seq & Hp).
  exists l. split; [lia|]. intros i Hi. rewrite forallb_forall in Hp. specialize (Hp i ltac:(apply in_seq; lia)).
  apply eqb_prop in Hp. rewrite Hp. rewrite (nth_indep _ false (phi 0)) by (by rewrite map_length, seq_length). rewrite map_nth, seq_nth by done. done.
Qed.

(* an injective map of the first n numbers into themselves has an inverse *)
Lemma perm_inverse n pi : (forall i, i < n -> pi i < n) -> (forall i j, i < n -> j < n -> pi i = pi j -> i = j) ->
  exists q, (forall i, i < n -> q (pi i) = i) /\ forall j, j < n -> q j < n /\ pi (q j) = j.
Proof.
  intros Hlt Hinj.
  assert (Hs : forall j, j < n -> exists i, i < n /\ pi i = j).
  { intros j Hj. assert (Hin : In j (map pi (seq 0 n))).
    { apply (NoDup_length_incl (l := map pi (seq 0 n)) (l' := seq 0 n)).
      - apply NoDup_ListNoDup, NoDup_fmap_2_strong; [|apply NoDup_seq]. intros a b Ha Hb. apply elem_of_seq in Ha, Hb. apply Hinj; lia.
      - by rewrite map_length.
      - intros a (i & <- & Hi%in_seq)%in_map_iff. apply in_seq. specialize (Hlt i). lia.
      - apply in_seq. lia. }
    apply in_map_iff in Hin as (i & <- & Hi%in_seq). exists i. split; [lia|done]. }
  exists (fun j => default 0 (fst <$> list_find (fun i => pi i = j) (seq 0 n))).
  assert (Hq : forall j, j < n -> default 0 (fst <$> list_find (fun i => pi i = j) (seq 0 n)) < n /\
    pi (default 0 (fst <$> list_find (fun i => pi i = j) (seq 0 n))) = j).
  { intros j Hj. destruct (Hs j Hj) as (i & Hi & E).
    destruct (list_find_elem_of (fun i => pi i = j) (seq 0 n) i) as [[a b] Hab]; [apply elem_of_seq; lia|done|].
    rewrite Hab. cbn. apply list_find_Some in Hab as (Ha & Hb & _). apply lookup_seq in Ha as [-> Hlt']. done. }
  split; [|exact Hq]. intros i Hi. destruct (Hq (pi i) (Hlt i Hi)) as [H1 H2]. apply Hinj; done.
Qed.

Record npn_tables (n : nat) (swaps flips : list nat) : Prop := {
  nt_sw : Forall (fun p => S p < n) swaps;
  nt_fl : Forall (fun p => p < n) flips;
  nt_n : 1 < n;
  nt_back : npn_perm n (swaps ++ [0]) = seq 0 n;
  nt_perms : all_perms n swaps = true;
  nt_phases : all_phases n flips = true
}.
Lemma tables_ok n swaps flips : swaps_of n = Some swaps -> flips_of n = Some flips -> npn_tables n swaps flips.
Proof.
  intros E1 E2. destruct n as [|[|[|[|[|n]]]]]; try done; injection E1 as <-; injection E2 as <-;
    (split; [repeat constructor|repeat constructor|lia|reflexivity|vm_compute; reflexivity|vm_compute; reflexivity]).
Qed.

Lemma canon_inv t r ph perm : exact_npn_canonization t = Some (r, ph, perm) ->
  exists swaps flips, npn_tables (nv t) swaps flips /\ let f := final swaps flips t in
  r = np_min f /\ ph = npn_phase (nv t) (np_inv f) (take (np_flip f) flips) /\ perm = npn_perm (nv t) (take (np_swap f) swaps).
Proof.
  unfold exact_npn_canonization. destruct (swaps_of (nv t)) as [swaps|] eqn:E1; [|done].
  destruct (flips_of (nv t)) as [flips|] eqn:E2; [|done]. intros [= <- <- <-].
  exists swaps, flips. split; [by apply tables_ok|done].
Qed.

Lemma canon_via t r ph perm : tt_wf t -> exact_npn_canonization t = Some (r, ph, perm) ->
  length perm = nv t /\ tt_wf r /\ nv r = nv t /\
  npn_via (nv t) (pget perm) (fun i => N.testbit ph (N.of_nat i)) (N.testbit ph (N.of_nat (nv t))) t r.
Proof.
  intros Hw E. destruct (canon_inv t r ph perm E) as (swaps & flips & [Hsw Hfl Hn Hb _ _] & -> & -> & ->).
  pose proof (final_inv (nv t) swaps flips Hsw Hfl Hn Hb t Hw eq_refl) as Hi.
  assert (Hs : Forall (fun p => S p < nv t) (take (np_swap (final swaps flips t)) swaps)) by (by apply Forall_take).
  split; [apply perm_length|]. split.
  { rewrite (in_min _ _ _ _ _ _ Hi). unfold tt_not_if. destruct (np_inv _); [apply not_wf|]; by apply X_wf. }
  split.
  { rewrite (in_min _ _ _ _ _ _ Hi). unfold tt_not_if. destruct (np_inv _); cbn; by apply X_nv. }
  split; [by apply perm_bound|]. split; [by apply perm_inj|]. intros x y Hx.
  apply (final_eval (nv t) swaps flips Hsw Hfl Hn Hb t Hw eq_refl x y Hx). by apply perm_bound.
Qed.

(* the representative is the least of the class *)
Lemma canon_least t u r ph perm : tt_wf t -> exact_npn_canonization t = Some (r, ph, perm) ->
  tt_wf u -> nv u = nv t -> npn_equiv (nv t) t u -> (tt_num r <= tt_num u)%N.
Proof.
  intros Hw E Hu Hnu (pi & phi & o & Hlt & Hinj & Hev).
  destruct (canon_inv t r ph perm E) as (swaps & flips & [Hsw Hfl Hn Hb Hp Hph] & -> & _ & _).
  pose proof (final_inv (nv t) swaps flips Hsw Hfl Hn Hb t Hw eq_refl) as Hi.
  destruct (reach_perm _ _ pi Hp Hlt Hinj) as (k & Hk & Ek).
  destruct (reach_phase _ _ phi Hph) as (l & Hl & El).
  assert (Eu : u = tt_not_if (X swaps flips t k l) o).
  { apply tt_ext; [done|unfold tt_not_if; destruct o; [apply not_wf|]; by apply X_wf|unfold tt_not_if; destruct o; cbn; rewrite (X_nv (nv t)); done|].
    intros x. rewrite eval_not_if by (by apply X_wf).
    destruct (perm_inverse _ pi Hlt Hinj) as (q & Hq1 & Hq2).
    rewrite (Hev x (fun j => xorb (x (q j)) (phi j))); [|intros i Hii; rewrite (Hq1 i Hii); by destruct (x i), (phi (pi i))].
    f_equal. unfold X. symmetry. rewrite (eval_swapped _ _ _ (fun j => x (q j))).
    - rewrite eval_flipped by (by apply Forall_take). apply eval_ext. intros j Hj. by rewrite El.
    - rewrite flipped_nv. by apply Forall_take.
    - rewrite flipped_nv. intros i Hii. rewrite (Ek i Hii). by rewrite Hq1. }
  destruct (in_least _ _ _ _ _ _ Hi k l) as [H1 H2].
  { unfold seen. destruct (decide (l = length flips)); [right|left]; lia. }
  rewrite Eu. unfold tt_not_if. destruct o; done.
Qed.

Lemma npn_equiv_sym n t u : npn_equiv n t u -> npn_equiv n u t.
Proof.
  intros (pi & phi & o & Hlt & Hinj & Hev). destruct (perm_inverse _ pi Hlt Hinj) as (q & Hq1 & Hq2).
  exists q, (fun i => phi (pi i)), o. split; [intros i Hi; by apply Hq2|]. split.
  { intros i j Hi Hj E. destruct (Hq2 i Hi) as [_ <-], (Hq2 j Hj) as [_ <-]. by rewrite E. }
  intros x y Hx. rewrite (Hev y x); [by destruct (tt_eval t x), o|].
  intros i Hi. rewrite (Hx (pi i) (Hlt i Hi)). rewrite (Hq1 i Hi). by destruct (y i), (phi (pi i)).
Qed.
Lemma npn_equiv_trans n t u v : npn_equiv n t u -> npn_equiv n u v -> npn_equiv n t v.
Proof.
  intros (pi & phi & o & Hlt & Hinj & Hev) (pi' & phi' & o' & Hlt' & Hinj' & Hev').
  exists (fun i => pi (pi' i)), (fun j => xorb (phi j) (phi' (default 0 (fst <$> list_find (fun i => pi i = j) (seq 0 n))))), (xorb o o').
  destruct (perm_inverse _ pi Hlt Hinj) as (q & Hq1 & Hq2).
  assert (Hfind : forall i, i < n -> default 0 (fst <$> list_find (fun k => pi k = pi i) (seq 0 n)) = i).
  { intros i Hi. destruct (list_find_elem_of (fun k => pi k = pi i) (seq 0 n) i) as [[a b] Hab]; [apply elem_of_seq; lia|done|].
    rewrite Hab. cbn. apply list_find_Some in Hab as (Ha & Hb & _). apply lookup_seq in Ha as [-> Hl]. cbn. apply Hinj; done. }
  split; [auto|]. split; [intros i j Hi Hj E; apply Hinj' ; auto|].
  intros x y Hx. rewrite (Hev' x (fun j => xorb (y (pi j)) (phi (pi j)))).
  - rewrite (Hev (fun j => xorb (y (pi j)) (phi (pi j))) y); [by rewrite xorb_assoc|done].
  - intros i Hi. rewrite (Hx i Hi), Hfind by auto. by destruct (y (pi (pi' i))), (phi (pi (pi' i))), (phi' (pi' i)).
Qed.

Lemma canon_unique t u r ph perm r' ph' perm' : tt_wf t -> tt_wf u -> nv u = nv t -> npn_equiv (nv t) t u ->
  exact_npn_canonization t = Some (r, ph, perm) -> exact_npn_canonization u = Some (r', ph', perm') -> r = r'.
Proof.
  intros Ht Hu Hn He E1 E2.
  destruct (canon_via t r ph perm Ht E1) as (_ & Wr & Nr & V1).
  destruct (canon_via u r' ph' perm' Hu E2) as (_ & Wr' & Nr' & V2). rewrite Hn in Nr', V2.
  assert (Q1 : npn_equiv (nv t) t r) by (eexists _, _, _; exact V1).
  assert (Q2 : npn_equiv (nv t) u r') by (eexists _, _, _; exact V2).
  apply tt_num_inj; [done|done|congruence|]. apply N.le_antisymm.
  - apply (canon_least t r' r ph perm); [done|done|done|done|]. exact (npn_equiv_trans _ _ _ _ He Q2).
  - apply (canon_least u r r' ph' perm'); [done|done|done|congruence|]. rewrite Hn. exact (npn_equiv_trans _ _ _ _ (npn_equiv_sym _ _ _ He) Q1).
Qed.
Lemma canon_total t : 2 <= nv t <= 4 -> exists c, exact_npn_canonization t = Some c.
Proof.
  intros H. unfold exact_npn_canonization. destruct (nv t) as [|[|[|[|[|n]]]]] eqn:E; try lia; cbn [swaps_of flips_of mbind option_bind]; by eexists.
Qed.
