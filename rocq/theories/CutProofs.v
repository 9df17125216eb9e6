From Verif Require Import Base Cut.

(* ---- popcount and signatures ---- *)
Lemma pos_popcount_succ p : pos_popcount (Pos.succ p) <= S (pos_popcount p).
Proof. induction p; cbn; lia. Qed.

Lemma popcount_add_pos p : forall q,
  pos_popcount (p + q) <= pos_popcount (Pos.lor p q) /\
  pos_popcount (Pos.add_carry p q) <= S (pos_popcount (Pos.lor p q)).
Proof.
  induction p as [p IH|p IH|]; intros [q|q|]; cbn;
    try (destruct (IH q) as [H1 H2]); try (pose proof (pos_popcount_succ p)); try (pose proof (pos_popcount_succ q));
    first [lia | split; first [assumption | apply le_n_S; assumption]].
Qed.

Lemma popcount_add a b : popcount (a + b) <= popcount (N.lor a b).
Proof.
  destruct a as [|p]; [by rewrite N.add_0_l, N.lor_0_l|].
  destruct b as [|q]; [by rewrite N.add_0_r, N.lor_0_r|]. apply popcount_add_pos.
Qed.

Lemma popcount_lor_pos p : forall q, pos_popcount (Pos.lor p q) <= pos_popcount p + pos_popcount q.
Proof. induction p as [p IH|p IH|]; intros [q|q|]; cbn; try (specialize (IH q)); lia. Qed.
Lemma popcount_lor a b : popcount (N.lor a b) <= popcount a + popcount b.
Proof. destruct a as [|p], b as [|q]; cbn; try lia. apply popcount_lor_pos. Qed.

Lemma popcount_double a : popcount (N.double a) = popcount a.
Proof. by destruct a. Qed.
Lemma popcount_div2 a : popcount (N.div2 a) <= popcount a.
Proof. destruct a as [|[p|p|]]; cbn; lia. Qed.
Lemma popcount_div2' a : popcount a = popcount (N.div2 a) + Nat.b2n (N.odd a).
Proof. destruct a as [|[p|p|]]; cbn; lia. Qed.

Lemma popcount_shiftl n : forall k, popcount (N.shiftl n k) = popcount n.
Proof.
  induction k as [|k IH] using N.peano_ind; [by rewrite N.shiftl_0_r|].
  by rewrite N.shiftl_succ_r, popcount_double.
Qed.

Lemma popcount_bit l : popcount (leaf_bit l) = 1.
Proof. unfold leaf_bit. by rewrite popcount_shiftl. Qed.

(* splitting at bit k *)
Lemma popcount_split k : forall n, popcount n = popcount (N.land n (N.ones k)) + popcount (N.shiftr n k).
Proof.
  induction k as [|k IH] using N.peano_ind; intros n.
  - rewrite N.shiftr_0_r. change (N.ones 0) with 0%N. by rewrite N.land_0_r.
  - rewrite (popcount_div2' n), (popcount_div2' (N.land n (N.ones (N.succ k)))), (IH (N.div2 n)).
    assert (E1 : N.div2 (N.land n (N.ones (N.succ k))) = N.land (N.div2 n) (N.ones k)).
    { apply N.bits_inj. intros i. 
      rewrite N.div2_spec, N.shiftr_spec', N.land_spec, N.land_spec, N.div2_spec, N.shiftr_spec'.
      f_equal. destruct (N.ltb_spec i k).
      - rewrite !N.ones_spec_low by lia. done.
      - rewrite !N.ones_spec_high by lia. done. }
    assert (E2 : N.odd (N.land n (N.ones (N.succ k))) = N.odd n).
    { rewrite <- !N.bit0_odd, N.land_spec, N.ones_spec_low by lia. by rewrite andb_true_r. }
    assert (E3 : N.shiftr n (N.succ k) = N.shiftr (N.div2 n) k).
    { apply N.bits_inj. intros i. rewrite !N.shiftr_spec', N.div2_spec, N.shiftr_spec'. f_equal. lia. }
    rewrite E1, E2, E3. lia.
Qed.

Lemma popcount64_eq n : popcount64 n = popcount n.
Proof. unfold popcount64. change 0xffffffff%N with (N.ones 32). by rewrite <- popcount_split. Qed.

Lemma popcount_mod n k : popcount (n mod 2 ^ k) <= popcount n.
Proof. rewrite <- N.land_ones. rewrite (popcount_split k n). lia. Qed.

Lemma fold_lor_acc l : forall a, fold_left (fun a x => N.lor a (leaf_bit x)) l a = N.lor a (sign_of l).
Proof.
  unfold sign_of. induction l as [|x l IH]; intros a; cbn [fold_left]; [by rewrite N.lor_0_r|].
  rewrite IH, (IH (N.lor 0 _)). rewrite N.lor_0_l. by rewrite N.lor_assoc.
Qed.
Lemma sign_cons x l : sign_of (x :: l) = N.lor (leaf_bit x) (sign_of l).
Proof. unfold sign_of at 1. cbn [fold_left]. by rewrite fold_lor_acc, N.lor_0_l. Qed.

Lemma popcount_sign l : popcount (sign_of l) <= length l.
Proof.
  induction l as [|x l IH]; [done|]. rewrite sign_cons.
  pose proof (popcount_lor (leaf_bit x) (sign_of l)) as H. rewrite popcount_bit in H. cbn [length]. lia.
Qed.

Lemma sign_elem l i : N.testbit (sign_of l) i = existsb (fun x => N.testbit (leaf_bit x) i) l.
Proof. induction l as [|x l IH]; [by cbn; destruct i|]. rewrite sign_cons, N.lor_spec, IH. done. Qed.

Lemma sign_subset l1 l2 : (forall x, x ∈ l1 -> x ∈ l2) -> N.land (sign_of l1) (sign_of l2) = sign_of l1.
Proof.
  intros H. apply N.bits_inj. intros i. rewrite N.land_spec, !sign_elem.
  destruct (existsb (fun x => N.testbit (leaf_bit x) i) l1) eqn:E; [|done]. cbn.
  apply existsb_exists in E as (x & Hx & Hb). apply existsb_exists. exists x. split; [|done].
  apply elem_of_list_In, H, elem_of_list_In, Hx.
Qed.

Lemma sign_union l1 l2 l : (forall x, x ∈ l <-> x ∈ l1 \/ x ∈ l2) -> N.lor (sign_of l1) (sign_of l2) = sign_of l.
Proof.
  intros H. apply N.bits_inj. intros i. rewrite N.lor_spec, !sign_elem. apply eq_true_iff_eq.
  rewrite orb_true_iff, !existsb_exists. setoid_rewrite <- elem_of_list_In. split.
  - intros [(x & Hx & Hb)|(x & Hx & Hb)]; exists x; rewrite H; auto.
  - intros (x & Hx & Hb). apply H in Hx as [Hx|Hx]; [left|right]; eauto.
Qed.

(* ---- sorted lists ---- *)
Lemma sorted_nil : sorted [].
Proof. intros i j a b _ H. by rewrite lookup_nil in H. Qed.
Lemma sorted_cons x l : sorted (x :: l) <-> (forall y, y ∈ l -> x < y) /\ sorted l.
Proof.
  split.
  - intros H. split.
    + intros y [i Hy]%elem_of_list_lookup. by apply (H 0 (S i)); [lia|..].
    + intros i j a b Hij Ha Hb. by apply (H (S i) (S j)); [lia|..].
  - intros [H1 H2] [|i] [|j] a b Hij Ha Hb; try lia.
    + cbn in Ha. injection Ha as <-. apply H1. by eapply elem_of_list_lookup_2.
    + apply (H2 i j); [lia|done..].
Qed.
Lemma sorted_NoDup l : sorted l -> NoDup l.
Proof.
  induction l as [|x l IH]; [constructor|]. rewrite sorted_cons. intros [H1 H2]. constructor; [|auto].
  intros Hx. specialize (H1 _ Hx). lia.
Qed.
Lemma sorted_eq l1 : forall l2, sorted l1 -> sorted l2 -> (forall x, x ∈ l1 <-> x ∈ l2) -> l1 = l2.
Proof.
  induction l1 as [|x l1 IH]; intros [|y l2] H1 H2 H; [done|..].
  - exfalso. assert (y ∈ []) by (apply H; constructor). by apply not_elem_of_nil in H0.
  - exfalso. assert (x ∈ []) by (apply H; constructor). by apply not_elem_of_nil in H0.
  - apply sorted_cons in H1 as [H1 S1], H2 as [H2 S2].
    assert (x = y) as ->.
    { assert (Hx : x ∈ y :: l2) by (apply H; constructor). assert (Hy : y ∈ x :: l1) by (apply H; constructor).
      apply elem_of_cons in Hx as [?|Hx]; [done|]. apply elem_of_cons in Hy as [?|Hy]; [done|].
      specialize (H1 _ Hy). specialize (H2 _ Hx). lia. }
    f_equal. apply IH; [done..|]. intros z. split; intros Hz.
    + assert (Hz' : z ∈ y :: l2) by (apply H; by constructor). apply elem_of_cons in Hz' as [->|?]; [|done].
      specialize (H1 _ Hz). lia.
    + assert (Hz' : z ∈ y :: l1) by (apply H; by constructor). apply elem_of_cons in Hz' as [->|?]; [|done].
      specialize (H2 _ Hz). lia.
Qed.
Lemma sorted_tl x l : sorted (x :: l) -> sorted l.
Proof. rewrite sorted_cons. by intros [_ ?]. Qed.

Lemma NoDup_sub_length (l1 l2 : list nat) : NoDup l1 -> (forall x, x ∈ l1 -> x ∈ l2) -> length l1 <= length l2.
Proof. intros Hn Hs. apply submseteq_length, NoDup_submseteq; done. Qed.

(* ---- dominates ---- *)
Lemma dom_scan_spec l2 : forall l1, sorted l2 -> sorted l1 -> l1 <> [] ->
  dom_scan l2 l1 = true <-> forall x, x ∈ l1 -> x ∈ l2.
Proof.
  induction l2 as [|y l2 IH]; intros [|x l1] S2 S1 Hne; try done.
  - cbn. split; [done|]. intros H. assert (x ∈ []) by (apply H; constructor). by apply not_elem_of_nil in H0.
  - cbn [dom_scan]. apply sorted_cons in S2 as [B2 S2]. pose proof S1 as S1'.
    apply sorted_cons in S1' as [B1 S1']. destruct (Nat.ltb_spec x y).
    + split; [done|]. intros H'. assert (Hx : x ∈ y :: l2) by (apply H'; constructor).
      apply elem_of_cons in Hx as [?|Hx]; [lia|]. specialize (B2 _ Hx). lia.
    + destruct (Nat.eqb_spec y x) as [->|Hyx].
      * destruct l1 as [|x' l1].
        -- split; [|done]. intros _ z ->%elem_of_list_singleton. constructor.
        -- rewrite IH by done. split; intros H' z Hz.
           ++ apply elem_of_cons in Hz as [->|Hz]; [constructor|]. constructor. by apply H'.
           ++ assert (Hz' : z ∈ x :: l2) by (apply H'; by constructor).
              apply elem_of_cons in Hz' as [->|?]; [|done]. specialize (B1 _ Hz). lia.
      * rewrite IH by done. split; intros H' z Hz.
        -- constructor. by apply H'.
        -- assert (Hz' : z ∈ y :: l2) by (by apply H'). apply elem_of_cons in Hz' as [->|?]; [|done].
           exfalso. apply elem_of_cons in Hz as [?|Hz]; [lia|]. specialize (B1 _ Hz). lia.
Qed.

Section cuts.
Context {D : Type}.
Implicit Types a b c : cut D.

Lemma dominates_spec a b : cut_wf a -> cut_wf b ->
  dominates a b = true <-> forall x, x ∈ lvs a -> x ∈ lvs b.
Proof.
  intros [Sa Ga] [Sb Gb]. unfold dominates.
  destruct (Nat.ltb_spec (length (lvs b)) (length (lvs a))) as [Hl|Hl]; cbn [orb].
  { split; [done|]. intros H. pose proof (NoDup_sub_length _ _ (sorted_NoDup _ Sa) H). lia. }
  destruct (N.eqb_spec (N.land (sg a) (sg b)) (sg a)) as [Hg|Hg]; cbn [negb].
  2:{ split; [done|]. intros H. rewrite Ga, Gb in Hg. by rewrite sign_subset in Hg. }
  destruct (Nat.eqb_spec (length (lvs a)) (length (lvs b))) as [He|He].
  { rewrite bool_decide_eq_true. split; [by intros ->|]. intros H. apply sorted_eq; [done..|].
    intros x. split; [apply H|]. intros Hx.
    assert (P : lvs a ≡ₚ lvs b).
    { apply submseteq_Permutation_length_le; [lia|]. apply NoDup_submseteq; [by apply sorted_NoDup|done]. }
    by rewrite P. }
  destruct (Nat.eqb_spec (length (lvs a)) 0) as [H0|H0].
  { apply nil_length_inv in H0. rewrite H0. split; [|done]. intros _ x ?%not_elem_of_nil. done. }
  apply dom_scan_spec; [done..|]. intros E. by rewrite E in H0.
Qed.

(* ---- merge ---- *)
Lemma union_loop_spec f : forall l1 l2, length l1 + length l2 <= f ->
  (forall x, x ∈ union_loop f l1 l2 <-> x ∈ l1 \/ x ∈ l2) /\
  (sorted l1 -> sorted l2 -> sorted (union_loop f l1 l2)) /\
  length (union_loop f l1 l2) <= length l1 + length l2.
Proof.
  induction f as [|f IH]; intros [|x l1] [|y l2] Hf; cbn [length] in Hf; try lia;
    try (cbn; repeat split; try done; [setoid_rewrite elem_of_nil; naive_solver..|lia]).
  1,2,3: cbn; (split; [intros z; rewrite ?elem_of_nil; naive_solver|]); (split; [done|lia]).
  cbn [union_loop]. destruct (Nat.ltb_spec x y) as [Hl|Hl]; [|destruct (Nat.ltb_spec y x) as [Hl'|Hl']].
  - destruct (IH l1 (y :: l2)) as (E & S' & L); [cbn; lia|]. split; [|split].
    + intros z. rewrite elem_of_cons, E, !elem_of_cons. naive_solver.
    + intros S1 S2. pose proof S2 as S2'. apply sorted_cons in S1 as [B1 S1], S2 as [B2 S2]. apply sorted_cons.
      split; [|auto]. intros z. rewrite E, elem_of_cons. intros [?|[->|Hz]]; [auto|done|].
      specialize (B2 _ Hz). lia.
    + cbn [length] in *. lia.
  - destruct (IH (x :: l1) l2) as (E & S' & L); [cbn; lia|]. split; [|split].
    + intros z. rewrite elem_of_cons, E, !elem_of_cons. naive_solver.
    + intros S1 S2. pose proof S1 as S1'. apply sorted_cons in S1 as [B1 S1], S2 as [B2 S2]. apply sorted_cons.
      split; [|auto]. intros z. rewrite E, elem_of_cons. intros [[->|Hz]|?]; [done| |auto].
      specialize (B1 _ Hz). lia.
    + cbn [length] in *. lia.
  - assert (x = y) as -> by lia. destruct (IH l1 l2) as (E & S' & L); [cbn; lia|]. split; [|split].
    + intros z. rewrite elem_of_cons, E, !elem_of_cons. naive_solver.
    + intros S1 S2. apply sorted_cons in S1 as [B1 S1], S2 as [B2 S2]. apply sorted_cons.
      split; [|auto]. intros z. rewrite E. naive_solver.
    + cbn [length] in *. lia.
Qed.
Lemma set_union_elem l1 l2 x : x ∈ set_union l1 l2 <-> x ∈ l1 \/ x ∈ l2.
Proof. by apply union_loop_spec. Qed.
Lemma set_union_sorted l1 l2 : sorted l1 -> sorted l2 -> sorted (set_union l1 l2).
Proof. by apply union_loop_spec. Qed.
Lemma set_union_length l1 l2 : length (set_union l1 l2) <= length l1 + length l2.
Proof. by apply union_loop_spec. Qed.

Lemma merge_filter_sound a b k : cut_wf a -> cut_wf b ->
  merge_filter a b k = true -> k < length (set_union (lvs a) (lvs b)).
Proof.
  intros [Sa Ga] [Sb Gb]. unfold merge_filter. rewrite andb_true_iff, !Nat.ltb_lt, popcount64_eq.
  intros [_ H]. pose proof (popcount_mod (sg a + sg b) 64) as H1.
  pose proof (popcount_add (sg a) (sg b)) as H2.
  rewrite Ga, Gb in *. rewrite (sign_union _ _ _ (set_union_elem (lvs a) (lvs b))) in H2.
  pose proof (popcount_sign (set_union (lvs a) (lvs b))). lia.
Qed.

Lemma merge_spec cap a b res k : cut_wf a -> cut_wf b ->
  let u := set_union (lvs a) (lvs b) in
  (length u <= cap -> merge cap a b res k =
     Some (if length u <=? k then Some (Cut u (sign_of u) (fid res) (dat res)) else None)) /\
  (cap < length u -> merge cap a b res k = if merge_filter a b k then Some None else None).
Proof.
  intros Ha Hb u. unfold merge. fold u. pose proof (merge_filter_sound a b k Ha Hb) as Hf. fold u in Hf. split.
  - intros Hu. destruct (merge_filter a b k) eqn:E.
    + specialize (Hf eq_refl). destruct (Nat.leb_spec (length u) k); [lia|done].
    + rewrite decide_True by done. destruct (length u <=? k); [|done].
      destruct Ha as [Sa ->], Hb as [Sb ->]. by rewrite (sign_union _ _ _ (set_union_elem (lvs a) (lvs b))).
  - intros Hu. destruct (merge_filter a b k) eqn:E; [done|]. rewrite decide_False by lia. done.
Qed.

Lemma merge_success cap a b res k c : cut_wf a -> cut_wf b -> merge cap a b res k = Some (Some c) ->
  lvs c = set_union (lvs a) (lvs b) /\ cut_wf c /\ length (lvs c) <= k /\ length (lvs c) <= cap /\
  fid c = fid res /\ dat c = dat res.
Proof.
  intros Ha Hb H. destruct (merge_spec cap a b res k Ha Hb) as [H1 H2].
  destruct (Nat.leb_spec (length (set_union (lvs a) (lvs b))) cap) as [Hc|Hc].
  - rewrite H1 in H by done. destruct (Nat.leb_spec (length (set_union (lvs a) (lvs b))) k); [|done].
    injection H as <-. cbn. repeat split; try done; [|lia..]. destruct Ha, Hb. by apply set_union_sorted.
  - rewrite H2 in H by done. by destruct (merge_filter a b k).
Qed.
End cuts.

(* ---- lower_bound ---- *)
Section lb.
Context {D : Type} (lt : cut D -> cut D -> bool).
Implicit Types (l : list (cut D)) (c : cut D).

Lemma lower_bound_range fuel : forall l c first len,
  first <= lower_bound lt fuel l c first len /\ lower_bound lt fuel l c first len <= first + len.
Proof.
  induction fuel as [|fuel IH]; intros l c first len; cbn [lower_bound]; [lia|].
  case_decide; [lia|]. pose proof (Nat.div_lt len 2 ltac:(lia) ltac:(lia)).
  destruct (l !! (first + len / 2)); [|lia]. destruct (lt c0 c).
  - destruct (IH l c (S (first + len / 2)) (len - len / 2 - 1)). lia.
  - destruct (IH l c first (len / 2)). lia.
Qed.

Definition lsorted (l : list (cut D)) : Prop :=
  forall i j a b, i < j -> l !! i = Some a -> l !! j = Some b -> lt b a = false.

Lemma lower_bound_spec : swo lt -> forall fuel l c first len, lsorted l -> first + len <= length l -> len < fuel ->
  (forall i a, i < first -> l !! i = Some a -> lt a c = true) ->
  (forall i a, first + len <= i -> l !! i = Some a -> lt a c = false) ->
  let p := lower_bound lt fuel l c first len in
  (forall i a, i < p -> l !! i = Some a -> lt a c = true) /\
  (forall i a, p <= i -> l !! i = Some a -> lt a c = false).
Proof.
  intros W. induction fuel as [|fuel IH]; intros l c first len Hs Hl Hf Hlo Hhi; [lia|].
  cbn [lower_bound]. case_decide as H0; [subst len; split; [done|intros i a Hi; apply Hhi; lia]|].
  pose proof (Nat.div_lt len 2 ltac:(lia) ltac:(lia)) as Hd.
  destruct (lookup_lt_is_Some_2 l (first + len / 2)) as [x Hx]; [lia|]. rewrite Hx.
  destruct (lt x c) eqn:E.
  - apply IH; [done|lia|lia| |].
    + intros i a Hi Ha. destruct (decide (i = first + len / 2)) as [->|Hne]; [congruence|].
      destruct (lt a c) eqn:E2; [done|]. exfalso.
      assert (Hlt : lt x a = false) by (apply (Hs i (first + len / 2)); [lia|done..]).
      pose proof (swo_neg _ W _ _ _ Hlt E2). congruence.
    + intros i a Hi. apply Hhi. lia.
  - apply IH; [done|lia|lia|done|].
    intros i a Hi Ha. destruct (decide (i = first + len / 2)) as [->|Hne]; [congruence|].
    destruct (decide (first + len <= i)); [eauto|].
    assert (Hlt : lt a x = false) by (apply (Hs (first + len / 2) i); [lia|done..]).
    by apply (swo_neg _ W _ _ _ Hlt).
Qed.
End lb.

Lemma size_lt_swo {D} : swo (@size_lt D).
Proof.
  split; unfold size_lt; intros.
  - apply Nat.ltb_irrefl.
  - apply Nat.ltb_lt in H, H0. apply Nat.ltb_lt. lia.
  - apply Nat.ltb_ge in H, H0. apply Nat.ltb_ge. lia.
Qed.

(* ---- insert ---- *)
Section ins.
Context {D : Type} (lt : cut D -> cut D -> bool) (max cap : nat).
Implicit Types (l : list (cut D)) (c : cut D) (s : cutset D).

(* representation: the pointer array is full and the end within it *)
Definition cs_ok s : Prop := length (arr s) = max /\ cn s <= max.

Lemma filter_split {A} (f : A -> bool) (l : list A) :
  length (filter (fun o => f o = false) l) + length (filter (fun o => f o = true) l) = length l.
Proof.
  induction l as [|x l IH]; [done|]. rewrite !filter_cons. destruct (f x) eqn:E.
  - rewrite decide_False, decide_True by congruence. cbn. lia.
  - rewrite decide_True, decide_False by congruence. cbn. lia.
Qed.

(* what the visible cuts are after an insertion *)
Lemma cs_insert_spec c s : cs_ok s -> 0 < max -> cut_wf c -> lvs c <> [] -> length (lvs c) <= cap ->
  exists s', cs_insert lt cap c s = Some s' /\ cs_ok s' /\
  let keep := filter (fun o => dominates c o = false) (vis s) in
  let p := lower_bound lt (S (length keep)) keep c 0 (length keep) in
  p <= length keep /\
  ((length keep = max /\ p = length keep /\ vis s' = keep) \/
   (length keep = max /\ p < length keep /\ vis s' = take p keep ++ [c] ++ drop p (take (max - 1) keep)) \/
   (length keep < max /\ vis s' = take p keep ++ [c] ++ drop p keep)).
Proof.
  intros [Hl Hn] Hmax Hw Hne Hcap. unfold cs_insert. rewrite decide_False by done.
  set (keep := filter (fun o => dominates c o = false) (vis s)).
  set (drp := filter (fun o => dominates c o = true) (vis s)).
  set (p := lower_bound lt (S (length keep)) keep c 0 (length keep)).
  assert (Hp : p <= length keep) by (unfold p; destruct (lower_bound_range lt (S (length keep)) keep c 0 (length keep)); lia).
  assert (Hv : length (vis s) = cn s) by (unfold vis; rewrite take_length; lia).
  assert (Hkd : length keep + length drp = cn s).
  { rewrite <- Hv. apply (filter_split (fun o => dominates c o)). }
  set (all := keep ++ drp ++ drop (cn s) (arr s)).
  assert (Hall : length all = max).
  { unfold all. rewrite !app_length, drop_length. lia. }
  rewrite Hl. case_decide as Hfull.
  { destruct Hfull as [H1 H2]. eexists. split; [done|]. split; [split; cbn; lia|]. split; [done|]. left.
    split; [done|]. split; [done|]. unfold vis, all; cbn. by rewrite take_app. }
  cbv zeta.
  assert (Hpe : (if decide (length keep = max) then length keep - 1 else length keep) < max /\
                p <= (if decide (length keep = max) then length keep - 1 else length keep)).
  { case_decide; [|lia]. split; [lia|]. assert (p <> length keep) by (intros E; apply Hfull; split; lia). lia. }
  set (pend := if decide (length keep = max) then length keep - 1 else length keep) in *.
  destruct Hpe as [Hpm Hpp].
  destruct (lookup_lt_is_Some_2 all pend) as [icut Hi]; [lia|]. rewrite Hi. cbn [mbind option_bind].
  unfold set_leaves. rewrite decide_True by done. cbn [mbind option_bind lvs sg].
  rewrite <- (cw_sg c Hw).
  assert (Hc : Cut (lvs c) (sg c) (fid c) (dat c) = c) by (by destruct c). rewrite Hc. clear Hc.
  eexists. split; [done|]. split.
  { split; cbn [arr cn]; [|lia]. rewrite !app_length, drop_length, !take_length, drop_length. cbn [length].
    rewrite Hall. lia. }
  split; [done|]. right. unfold vis. cbn [arr cn].
  assert (Ht : take (S pend) (take p all ++ [c] ++ drop p (take pend all) ++ drop (S pend) all) =
               take p all ++ [c] ++ drop p (take pend all)).
  { replace (take p all ++ [c] ++ drop p (take pend all) ++ drop (S pend) all)
      with ((take p all ++ [c] ++ drop p (take pend all)) ++ drop (S pend) all) by (by rewrite <- !app_assoc).
    apply take_app_alt.
    rewrite !app_length, drop_length, !take_length. cbn [length]. lia. }
  rewrite Ht. unfold pend. case_decide as Hd.
  - left. split; [done|]. split.
    { destruct (decide (p = length keep)) as [E|]; [|lia]. exfalso. apply Hfull. done. }
    unfold all. rewrite !take_app_le by lia. rewrite Hd. done.
  - right. split; [lia|]. unfold all. rewrite take_app_le by lia. by rewrite take_app.
Qed.

Lemma lookup_insert_mid (l : list (cut D)) p c i a :
  p <= length l ->
  (take p l ++ [c] ++ drop p l) !! i = Some a ->
  (i < p /\ l !! i = Some a) \/ (i = p /\ a = c) \/ (p < i /\ l !! (i - 1) = Some a).
Proof.
  intros Hp H. destruct (decide (i < p)) as [Hi|Hi].
  - left. split; [done|]. rewrite lookup_app_l in H by (rewrite take_length; lia).
    by rewrite lookup_take in H.
  - right. rewrite lookup_app_r in H by (rewrite take_length; lia). rewrite take_length in H.
    rewrite Nat.min_l in H by lia. destruct (decide (i = p)) as [->|Hne].
    + left. rewrite Nat.sub_diag in H. cbn in H. by injection H as ->.
    + right. split; [lia|]. destruct (i - p) as [|k] eqn:E; [lia|]. rewrite lookup_app_r in H by (cbn; lia).
      cbn [length] in H. rewrite lookup_drop in H. rewrite <- H. f_equal. lia.
Qed.

Lemma vis_cases c s s' : cs_ok s -> 0 < max -> cut_wf c -> lvs c <> [] -> length (lvs c) <= cap ->
  cs_insert lt cap c s = Some s' ->
  let keep := filter (fun o => dominates c o = false) (vis s) in
  exists l q, vis s' = l /\ (l = keep \/ exists k, l = take q k ++ [c] ++ drop q k /\ q <= length k /\ exists t, keep = k ++ t).
Proof.
  intros Hok Hm Hw Hne Hc E. destruct (cs_insert_spec c s Hok Hm Hw Hne Hc) as (s2 & E2 & Hok2 & Hp & H).
  rewrite E in E2. injection E2 as <-. set (keep := filter _ _) in *. set (p := lower_bound _ _ _ _ _ _) in *.
  destruct H as [(H1 & H2 & H3)|[(H1 & H2 & H3)|(H1 & H3)]].
  - exists keep, 0. split; [done|]. by left.
  - exists (vis s'), p. split; [done|]. right. exists (take (max - 1) keep). split.
    + rewrite take_take, Nat.min_l by lia. done.
    + split; [rewrite take_length; lia|]. exists (drop (max - 1) keep). by rewrite take_drop.
  - exists (vis s'), p. split; [done|]. right. exists keep. split; [done|]. split; [done|].
    exists []. by rewrite app_nil_r.
Qed.

Record cs_inv (h : list (cut D)) (s : cutset D) : Prop := {
  ci_ok : cs_ok s;
  ci_wf : forall c, c ∈ vis s -> cut_wf c /\ lvs c <> [] /\ length (lvs c) <= cap /\ c ∈ h;
  ci_irr : forall i j a b, vis s !! i = Some a -> vis s !! j = Some b -> i <> j ->
           ~ (forall x, x ∈ lvs a -> x ∈ lvs b);
  ci_sorted : swo lt -> lsorted lt (vis s)
}.

Lemma sublist_app_l (k t : list (cut D)) i a : k !! i = Some a -> (k ++ t) !! i = Some a.
Proof. apply lookup_app_l_Some. Qed.

Lemma filter_index (P : cut D -> Prop) `{forall x, Decision (P x)} (l : list (cut D)) :
  exists f : nat -> nat, (forall i j, i < j -> j < length (filter P l) -> f i < f j) /\
    forall i a, filter P l !! i = Some a -> l !! f i = Some a /\ P a.
Proof.
  induction l as [|x l IH].
  { exists id. cbn. split; [intros; lia|]. intros i a Hi. by rewrite lookup_nil in Hi. }
  destruct IH as (f & Hm & Hf). rewrite filter_cons. case_decide as Hx.
  - exists (fun i => match i with 0 => 0 | S k => S (f k) end). split.
    + intros [|i] [|j] Hij Hj; try lia. cbn in Hj. specialize (Hm i j ltac:(lia) ltac:(lia)). lia.
    + intros [|i] a; cbn; [intros [= <-]; done|apply Hf].
  - exists (fun i => S (f i)). split.
    + intros i j Hij Hj. specialize (Hm i j Hij Hj). lia.
    + intros i a Hi. cbn. by apply Hf.
Qed.

Lemma is_dominated_spec s c : cut_wf c -> (forall o, o ∈ vis s -> cut_wf o) ->
  is_dominated s c = true <-> exists o, o ∈ vis s /\ forall x, x ∈ lvs o -> x ∈ lvs c.
Proof.
  intros Hc Ho. unfold is_dominated. rewrite existsb_exists. setoid_rewrite <- elem_of_list_In.
  split; intros (o & Hin & Hd); exists o; (split; [done|]); apply (dominates_spec o c (Ho _ Hin) Hc); done.
Qed.

Lemma cs_add_inv h s c s' : cs_inv h s -> 0 < max -> cut_wf c -> lvs c <> [] -> length (lvs c) <= cap ->
  cs_add lt cap c s = Some s' -> cs_inv (h ++ [c]) s'.
Proof.
  intros Hi Hm Hw Hne Hcap E. unfold cs_add in E. destruct (is_dominated s c) eqn:Ed.
  { injection E as <-. destruct Hi as [H1 H2 H3 H4]. split; try done.
    intros c' Hc'. destruct (H2 c' Hc') as (? & ? & ? & ?). split_and!; try done. apply elem_of_app; auto. }
  assert (Hnd : forall o, o ∈ vis s -> ~ (forall x, x ∈ lvs o -> x ∈ lvs c)).
  { intros o Ho Hs. assert (is_dominated s c = true); [|congruence].
    apply is_dominated_spec; [done| |eauto]. intros o' Ho'. by apply (ci_wf h s Hi). }
  destruct (cs_insert_spec c s (ci_ok h s Hi) Hm Hw Hne Hcap) as (s2 & E2 & Hok2 & Hp & Hcase).
  rewrite E in E2. injection E2 as <-.
  destruct (vis_cases c s s' (ci_ok h s Hi) Hm Hw Hne Hcap E) as (l & q & Hv & Hl).
  set (keep := filter (fun o => dominates c o = false) (vis s)) in *.
  set (p := lower_bound lt (S (length keep)) keep c 0 (length keep)) in *.
  destruct (filter_index (fun o => dominates c o = false) (vis s)) as (f & Hfm & Hf). fold keep in Hfm, Hf.
  (* lookup in the new visible list: either a kept cut or c *)
  assert (Hlk : exists g : nat -> option nat,
    (forall i a, vis s' !! i = Some a -> match g i with Some k => keep !! k = Some a | None => a = c end) /\
    (forall i j, i < length (vis s') -> j < length (vis s') -> g i = g j -> i = j)).
  { destruct Hl as [->|(k & Hk & Hq & t & Ht)].
    - exists (fun i => Some i). split; [|congruence]. intros i a. by rewrite Hv.
    - exists (fun i => if decide (i < q) then Some i else if decide (i = q) then None else Some (i - 1)). split.
      + intros i a Hia. rewrite Hv, Hk in Hia. destruct (lookup_insert_mid k q c i a Hq Hia) as [[? Hx]|[[? ->]|[? Hx]]].
        * rewrite decide_True by done. rewrite Ht. by apply lookup_app_l_Some.
        * rewrite decide_False by lia. by rewrite decide_True by done.
        * rewrite decide_False by lia. rewrite decide_False by lia. rewrite Ht. by apply lookup_app_l_Some.
      + intros i j _ _. repeat case_decide; intros [=]; lia. }
  destruct Hlk as (g & Hg & Hginj).
  split.
  - done.
  - intros o Ho. apply elem_of_list_lookup in Ho as [i Ho]. specialize (Hg _ _ Ho). destruct (g i).
    + apply Hf in Hg as [Hg _]. apply elem_of_list_lookup_2 in Hg.
      destruct (ci_wf h s Hi _ Hg) as (? & ? & ? & ?). split_and!; try done. apply elem_of_app; auto.
    + subst o. split_and!; try done. apply elem_of_app. right. constructor.
  - intros i j a b Ha Hb Hij Hs. pose proof (Hg _ _ Ha) as Ga. pose proof (Hg _ _ Hb) as Gb.
    assert (Hgij : g i <> g j).
    { intros E'. apply Hij, Hginj; [by eapply lookup_lt_Some..|done]. }
    destruct (g i) as [k1|], (g j) as [k2|]; [| | |done].
    + assert (f k1 <> f k2).
      { assert (k1 <> k2) by congruence. destruct (decide (k1 < k2)) as [L|L].
        - assert (f k1 < f k2); [|lia]. apply Hfm; [done|by eapply lookup_lt_Some].
        - assert (f k2 < f k1); [|lia]. apply Hfm; [lia|by eapply lookup_lt_Some]. }
      apply Hf in Ga as [Ga _], Gb as [Gb _]. by eapply (ci_irr h s Hi (f k1) (f k2)).
    + subst b. apply Hf in Ga as [Ga _]. apply (Hnd a); [by eapply elem_of_list_lookup_2|done].
    + subst a. apply Hf in Gb as [Gb Hnb]. apply elem_of_list_lookup_2 in Gb.
      assert (dominates c b = true); [|congruence]. apply dominates_spec; [done| |done]. by apply (ci_wf h s Hi).
  - intros W. pose proof (ci_sorted h s Hi W) as Hso.
    assert (Hks : lsorted lt keep).
    { intros i j a b Hij Ha Hb. pose proof (lookup_lt_Some _ _ _ Hb). apply Hf in Ha as [Ha _], Hb as [Hb _].
      eapply Hso; [|exact Ha|exact Hb]. by apply Hfm. }
    destruct (lower_bound_spec lt W (S (length keep)) keep c 0 (length keep) Hks) as [Hlo Hhi];
      [lia|lia|intros; lia|intros i a Hi' Ha; apply lookup_lt_Some in Ha; lia|].
    fold p in Hlo, Hhi.
    assert (Hins : forall k t, keep = k ++ t -> p <= length k -> lsorted lt (take p k ++ [c] ++ drop p k)).
    { intros k t Hkt Hpk i j a b Hij Ha Hb.
      assert (Hin : forall i a, k !! i = Some a -> keep !! i = Some a) by (intros; rewrite Hkt; by apply lookup_app_l_Some).
      destruct (lookup_insert_mid k p c i a Hpk Ha) as [[? Hx]|[[? ->]|[? Hx]]];
      destruct (lookup_insert_mid k p c j b Hpk Hb) as [[? Hy]|[[? ->]|[? Hy]]]; try lia.
      - eapply Hks; [|by apply Hin..]. lia.
      - pose proof (Hlo i a ltac:(lia) (Hin _ _ Hx)) as H1. destruct (lt c a) eqn:E'; [|done].
        pose proof (swo_trans _ W _ _ _ H1 E'). by rewrite (swo_irr _ W) in H2.
      - eapply Hks; [|by apply Hin..]. lia.
      - eapply Hhi; [|by apply Hin]. lia.
      - eapply Hks; [|by apply Hin..]. lia. }
    destruct Hcase as [(H1 & H2 & ->)|[(H1 & H2 & ->)|(H1 & ->)]]; [done| |].
    + specialize (Hins (take (max - 1) keep) (drop (max - 1) keep)).
      rewrite take_take, Nat.min_l in Hins by lia. apply Hins; [by rewrite take_drop|]. rewrite take_length. lia.
    + apply (Hins keep []); [by rewrite app_nil_r|done].
Qed.

Lemma limit_spec k s : cs_ok s ->
  (0 < k < N.of_nat (cn s))%N -> exists s', limit k s = Some s' /\ cs_ok s' /\ vis s' = take (N.to_nat k - 1) (vis s).
Proof.
  intros [H1 H2] [Hk1 Hk2]. unfold limit. rewrite decide_True by done. rewrite decide_False by lia.
  eexists. split; [done|]. split; [split; cbn; lia|]. unfold vis; cbn. rewrite take_take. f_equal. lia.
Qed.

Lemma cs_limit_inv h s k s' : cs_inv h s -> limit k s = Some s' -> cs_inv h s'.
Proof.
  intros Hi E. unfold limit in E. case_decide as Hk; [|by injection E as <-].
  case_decide as H0; [done|]. destruct (limit_spec k s (ci_ok h s Hi) ltac:(lia)) as (s2 & E2 & Hok & Hv).
  unfold limit in E2. rewrite decide_True in E2 by done. rewrite decide_False in E2 by done.
  rewrite E in E2. injection E2 as <-. 
  assert (Hsub : forall i a, vis s' !! i = Some a -> vis s !! i = Some a).
  { intros i a. rewrite Hv. intros H. apply lookup_take_Some in H. by destruct H. }
  split; [done| | |].
  - intros c Hc. apply elem_of_list_lookup in Hc as [i Hc]. apply Hsub, elem_of_list_lookup_2 in Hc.
    by apply (ci_wf h s Hi).
  - intros i j a b Ha Hb. eapply (ci_irr h s Hi); eauto.
  - intros W i j a b Hij Ha Hb. eapply (ci_sorted h s Hi W); eauto.
Qed.

Lemma cs_hist_inv h s : 0 < max -> cs_hist lt max cap h s -> cs_inv h s.
Proof.
  intros Hm. induction 1 as [d|h s c s' Hh IH Hw Hne Hc E|h s k s' Hh IH E].
  - split.
    + split; cbn; [by rewrite repeat_length|lia].
    + intros c ?%not_elem_of_nil. done.
    + intros i j a b Ha. change (vis _) with (@nil (cut D)) in Ha. by rewrite lookup_nil in Ha.
    + intros _ i j a b _ Ha. change (vis _) with (@nil (cut D)) in Ha. by rewrite lookup_nil in Ha.
  - by eapply cs_add_inv.
  - by eapply cs_limit_inv.
Qed.

Lemma cs_add_total s c h : 0 < max -> cs_hist lt max cap h s -> cut_wf c -> lvs c <> [] -> length (lvs c) <= cap ->
  exists s', cs_add lt cap c s = Some s'.
Proof.
  intros Hm Hh Hw Hne Hc. pose proof (cs_hist_inv h s Hm Hh) as Hi. unfold cs_add.
  destruct (is_dominated s c); [eauto|].
  destruct (cs_insert_spec c s (ci_ok h s Hi) Hm Hw Hne Hc) as (s' & E & _). eauto.
Qed.

(* without limit calls and while everything fits, every offered cut is
   represented: some cut of the set is contained in it *)
Lemma cs_add_complete s c s' h : cs_inv h s -> 0 < max -> cut_wf c -> lvs c <> [] -> length (lvs c) <= cap ->
  length (vis s) < max ->
  cs_add lt cap c s = Some s' ->
  length (vis s') <= S (length (vis s)) /\
  forall o, (o = c \/ exists o', o' ∈ vis s /\ forall x, x ∈ lvs o' -> x ∈ lvs o) ->
    exists o', o' ∈ vis s' /\ forall x, x ∈ lvs o' -> x ∈ lvs o.
Proof.
  intros Hi Hm Hw Hne Hcap Hroom E. unfold cs_add in E. destruct (is_dominated s c) eqn:Ed.
  { injection E as <-. split; [lia|]. intros o [->|H]; [|done].
    apply (is_dominated_spec s c Hw) in Ed; [done|]. intros o Ho. by apply (ci_wf h s Hi). }
  destruct (cs_insert_spec c s (ci_ok h s Hi) Hm Hw Hne Hcap) as (s2 & E2 & Hok2 & Hp & Hcase).
  rewrite E in E2. injection E2 as <-.
  set (keep := filter (fun o => dominates c o = false) (vis s)) in *.
  set (p := lower_bound lt (S (length keep)) keep c 0 (length keep)) in *.
  assert (Hk : length keep <= length (vis s)) by apply filter_length.
  destruct Hcase as [(H1 & _)|[(H1 & _)|(H1 & Hv)]]; [lia..|].
  split. { rewrite Hv, !app_length, take_length, drop_length. cbn. lia. }
  assert (Hin : forall o, o ∈ vis s' <-> o = c \/ o ∈ keep).
  { intros o. rewrite Hv, !elem_of_app, elem_of_list_singleton.
    rewrite <- (take_drop p keep) at 3. rewrite elem_of_app. naive_solver. }
  intros o [->|(o' & Ho' & Hs)].
  - exists c. split; [|done]. apply Hin. auto.
  - destruct (dominates c o') eqn:Edom.
    + exists c. split; [apply Hin; auto|]. intros x Hx. apply Hs.
      eapply (dominates_spec c o'); [done|by apply (ci_wf h s Hi)|done..].
    + exists o'. split; [|done]. apply Hin. right. unfold keep. by apply elem_of_list_filter.
Qed.
End ins.

(* a run of guarded insertions *)
Section run.
Context {D : Type} (lt : cut D -> cut D -> bool) (max cap : nat).
Lemma cs_add_all_app l1 l2 s :
  cs_add_all lt cap (l1 ++ l2) s = s' ← cs_add_all lt cap l1 s; cs_add_all lt cap l2 s'.
Proof.
  revert s. induction l1 as [|c l1 IH]; intros s; [done|]. cbn. destruct (cs_add lt cap c s); [|done]. cbn. apply IH.
Qed.

Lemma cs_run_complete (d : D) (h : list (cut D)) :
  Forall (fun c => cut_wf c /\ lvs c <> [] /\ length (lvs c) <= cap) h -> length h <= max -> 0 < max ->
  exists s, cs_add_all lt cap h (cs_new max d) = Some s /\ cs_hist lt max cap h s /\
    length (vis s) <= length h /\
    forall c, c ∈ h -> exists o, o ∈ vis s /\ forall x, x ∈ lvs o -> x ∈ lvs c.
Proof.
  intros Hh Hl Hm. induction h as [|c h IH] using rev_ind.
  { eexists. split; [done|]. split; [constructor|]. split; [done|]. intros c ?%not_elem_of_nil. done. }
  apply Forall_app in Hh as [Hh Hc]. apply Forall_cons_1 in Hc as [(Hw & Hne & Hcap) _].
  rewrite app_length in Hl. cbn in Hl. destruct IH as (s & E & Hs & Hlen & Hrep); [done|lia|].
  destruct (cs_add_total lt max cap s c h Hm Hs Hw Hne Hcap) as (s' & E').
  pose proof (cs_hist_inv lt max cap h s Hm Hs) as Hinv.
  destruct (cs_add_complete lt max cap s c s' h Hinv Hm Hw Hne Hcap ltac:(lia) E') as [Hlen' Hrep'].
  exists s'. split.
  { rewrite cs_add_all_app, E. cbn. by rewrite E'. }
  split; [by econstructor|]. split; [rewrite app_length; cbn; lia|].
  intros c' Hc'. apply Hrep'. apply elem_of_app in Hc' as [Hc'|Hc'%elem_of_list_singleton]; [right; auto|by left].
Qed.
End run.
