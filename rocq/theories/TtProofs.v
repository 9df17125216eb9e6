From Verif Require Import Base Tt.

Lemma idx_lt n x : idx n x < 2 ^ n.
Proof.
  induction n as [|n IH]; cbn [idx]; [cbn; lia|].
  rewrite Nat.pow_succ_r'. destruct (x n); cbn [Nat.b2n]; lia.
Qed.

Lemma idx_ext n x y : (forall k, k < n -> x k = y k) -> idx n x = idx n y.
Proof.
  induction n as [|n IH]; intros H; [done|]. cbn [idx]. rewrite (H n) by lia.
  rewrite IH; [done|]. intros k Hk. apply H. lia.
Qed.

Lemma testbit_add_high m b n k : m < 2 ^ n ->
  Nat.testbit (m + Nat.b2n b * 2 ^ n) k = if decide (k = n) then b else Nat.testbit m k.
Proof.
  intros Hm. case_decide as Hk.
  - subst k. rewrite Nat.testbit_eqb.
    rewrite Nat.div_add, Nat.div_small, Nat.add_0_l by (done || lia).
    destruct b; done.
  - destruct (decide (k < n)) as [Hlt|Hge].
    + rewrite !Nat.testbit_eqb. f_equal.
      replace n with (k + S (n - S k)) at 1 by lia.
      rewrite Nat.pow_add_r, Nat.pow_succ_r'.
      replace (Nat.b2n b * (2 ^ k * (2 * 2 ^ (n - S k)))) with ((Nat.b2n b * 2 ^ (n - S k) * 2) * 2 ^ k) by lia.
      rewrite Nat.div_add by (apply Nat.pow_nonzero; lia).
      rewrite Nat.add_mod, Nat.mod_mul, Nat.add_0_r, Nat.mod_mod by lia. done.
    + assert (Hb : forall z, z < 2 ^ k -> Nat.testbit z k = false).
      { intros z Hz. rewrite Nat.testbit_eqb, Nat.div_small by done. done. }
      assert (H2 : 2 ^ S n <= 2 ^ k) by (apply Nat.pow_le_mono_r; lia).
      rewrite Nat.pow_succ_r' in H2.
      rewrite !Hb; [done|lia|]. destruct b; cbn [Nat.b2n]; lia.
Qed.

Lemma testbit_idx n x k : Nat.testbit (idx n x) k = if decide (k < n) then x k else false.
Proof.
  induction n as [|n IH]; cbn [idx].
  - rewrite decide_False by lia. apply Nat.bits_0.
  - rewrite testbit_add_high by apply idx_lt. rewrite IH.
    repeat case_decide; subst; try lia; done.
Qed.

Lemma idx_testbit n m : m < 2 ^ n -> idx n (Nat.testbit m) = m.
Proof.
  revert m. induction n as [|n IH]; intros m Hm; cbn [idx].
  - cbn in Hm. lia.
  - rewrite Nat.pow_succ_r' in Hm.
    assert (Hd : m = m mod 2 ^ n + Nat.b2n (Nat.testbit m n) * 2 ^ n).
    { rewrite Nat.testbit_eqb.
      pose proof (Nat.div_mod m (2 ^ n) ltac:(apply Nat.pow_nonzero; lia)) as E.
      assert (m / 2 ^ n < 2) by (apply Nat.div_lt_upper_bound; [apply Nat.pow_nonzero|]; lia).
      destruct (m / 2 ^ n) as [|[|?]]; cbn; cbn in E; lia. }
    rewrite Hd at 3. f_equal.
    rewrite <- (IH (m mod 2 ^ n)) by (apply Nat.mod_upper_bound, Nat.pow_nonzero; lia).
    apply idx_ext. intros k Hk. rewrite Hd at 1.
    rewrite testbit_add_high by (apply Nat.mod_upper_bound, Nat.pow_nonzero; lia).
    rewrite decide_False by lia. done.
Qed.

Lemma get_tab n f m : m < 2 ^ n -> get_bit (tt_tab n f) m = f m.
Proof.
  intros Hm. unfold get_bit, tt_tab; cbn [tb].
  rewrite nth_indep with (d' := f 0) by (by rewrite map_length, seq_length).
  rewrite map_nth, seq_nth by done. done.
Qed.

Lemma tab_wf n f : tt_wf (tt_tab n f).
Proof. unfold tt_wf, tt_tab. cbn. by rewrite map_length, seq_length. Qed.

Lemma eval_tab n f x : tt_eval (tt_tab n f) x = f (idx n x).
Proof. unfold tt_eval. cbn [nv tt_tab]. apply get_tab, idx_lt. Qed.

Lemma get_bit_eval t m : m < 2 ^ nv t -> get_bit t m = tt_eval t (Nat.testbit m).
Proof. intros. unfold tt_eval. by rewrite idx_testbit. Qed.

Lemma eval_ext t x y : (forall k, k < nv t -> x k = y k) -> tt_eval t x = tt_eval t y.
Proof. intros H. unfold tt_eval. by rewrite (idx_ext _ _ _ H). Qed.

Lemma eval_sub n t sigma x :
  (forall x y k, (forall j, j < n -> x j = y j) -> k < nv t -> sigma x k = sigma y k) ->
  tt_eval (tt_sub n t sigma) x = tt_eval t (sigma x).
Proof.
  intros Hs. unfold tt_sub. rewrite eval_tab. unfold tt_eval. f_equal. apply idx_ext.
  intros k Hk. apply Hs; [|done]. intros j Hj. by rewrite testbit_idx, decide_True.
Qed.

Lemma sub_wf n t sigma : tt_wf (tt_sub n t sigma).
Proof. apply tab_wf. Qed.

Lemma tt_ext s t : tt_wf s -> tt_wf t -> nv s = nv t ->
  (forall x, tt_eval s x = tt_eval t x) -> s = t.
Proof.
  intros Hs Ht Hn H. destruct s as [n sb], t as [n' tb']; cbn in *. subst n'. f_equal.
  unfold tt_wf in *; cbn in *. apply (nth_ext _ _ false false); [congruence|].
  intros m Hm. specialize (H (Nat.testbit m)). unfold tt_eval, get_bit in H; cbn in H.
  rewrite idx_testbit in H by lia. done.
Qed.

Lemma not_wf t : tt_wf t -> tt_wf (tt_not t).
Proof. unfold tt_wf, tt_not. cbn. by rewrite map_length. Qed.
Lemma eval_not t x : tt_wf t -> tt_eval (tt_not t) x = negb (tt_eval t x).
Proof.
  intros Hw. unfold tt_eval, get_bit, tt_not. cbn [nv tb].
  rewrite nth_indep with (d' := negb false); [by rewrite map_nth|].
  rewrite map_length, Hw. apply idx_lt.
Qed.
Lemma zip_wf f s t : tt_wf s -> tt_wf t -> nv s = nv t -> tt_wf (Tt (nv s) (zip_with f (tb s) (tb t))).
Proof. unfold tt_wf. intros Hs Ht E. cbn. rewrite zip_with_length, Hs, Ht, <- E. lia. Qed.
Lemma nth_lookup {A} (l : list A) i d : nth i l d = default d (l !! i).
Proof. revert i. induction l as [|a l IH]; intros [|i]; cbn; done. Qed.
Lemma eval_zip f s t x : tt_wf s -> tt_wf t -> nv s = nv t ->
  tt_eval (Tt (nv s) (zip_with f (tb s) (tb t))) x = f (tt_eval s x) (tt_eval t x).
Proof.
  intros Hs Ht E. unfold tt_eval, get_bit. cbn [nv tb]. rewrite <- E.
  pose proof (idx_lt (nv s) x) as Hl. rewrite !nth_lookup, lookup_zip_with.
  destruct (lookup_lt_is_Some_2 (tb s) (idx (nv s) x)) as [a ->]; [by rewrite Hs|].
  destruct (lookup_lt_is_Some_2 (tb t) (idx (nv s) x)) as [b ->]; [by rewrite Ht, <- E|]. done.
Qed.
Lemma and_wf s t : tt_wf s -> tt_wf t -> nv s = nv t -> tt_wf (tt_and s t).
Proof. apply zip_wf. Qed.
Lemma or_wf s t : tt_wf s -> tt_wf t -> nv s = nv t -> tt_wf (tt_or s t).
Proof. apply zip_wf. Qed.
Lemma xor_wf s t : tt_wf s -> tt_wf t -> nv s = nv t -> tt_wf (tt_xor s t).
Proof. apply zip_wf. Qed.
Lemma eval_and s t x : tt_wf s -> tt_wf t -> nv s = nv t -> tt_eval (tt_and s t) x = tt_eval s x && tt_eval t x.
Proof. apply (eval_zip andb). Qed.
Lemma eval_or s t x : tt_wf s -> tt_wf t -> nv s = nv t -> tt_eval (tt_or s t) x = tt_eval s x || tt_eval t x.
Proof. apply (eval_zip orb). Qed.
Lemma eval_xor s t x : tt_wf s -> tt_wf t -> nv s = nv t -> tt_eval (tt_xor s t) x = xorb (tt_eval s x) (tt_eval t x).
Proof. apply (eval_zip xorb). Qed.
Lemma not_if_wf t c : tt_wf t -> tt_wf (tt_not_if t c).
Proof. destruct c; [apply not_wf|done]. Qed.
Lemma eval_not_if t c x : tt_wf t -> tt_eval (tt_not_if t c) x = xorb (tt_eval t x) c.
Proof. intros H. unfold tt_not_if. destruct c; [rewrite eval_not by done|]; by destruct (tt_eval t x). Qed.
Lemma nv_not_if t c : nv (tt_not_if t c) = nv t.
Proof. by destruct c. Qed.

Lemma const_wf n b : tt_wf (tt_const n b).
Proof. unfold tt_wf. cbn. by rewrite repeat_length. Qed.
Lemma eval_const n b x : tt_eval (tt_const n b) x = b.
Proof.
  unfold tt_eval, get_bit; cbn. rewrite nth_indep with (d' := b); [|rewrite repeat_length; apply idx_lt].
  apply nth_repeat.
Qed.
Lemma var_wf n i : tt_wf (tt_var n i).
Proof. apply tab_wf. Qed.
Lemma eval_var n i x : i < n -> tt_eval (tt_var n i) x = x i.
Proof. intros. unfold tt_var. rewrite eval_tab, testbit_idx. by rewrite decide_True. Qed.

Lemma is_const0_spec t : tt_wf t -> tt_is_const0 t = true <-> forall x, tt_eval t x = false.
Proof.
  intros Hw. unfold tt_is_const0. rewrite forallb_forall. split.
  - intros H x. unfold tt_eval, get_bit. apply negb_true_iff, H, nth_In. rewrite Hw. apply idx_lt.
  - intros H b Hb. apply (In_nth _ _ false) in Hb as (m & Hm & <-). rewrite Hw in Hm.
    specialize (H (Nat.testbit m)). rewrite <- get_bit_eval in H by done. unfold get_bit in H. by rewrite H.
Qed.

Lemma upd_var_ext x y n i b k : (forall j, j < n -> x j = y j) -> k < n -> upd_var x i b k = upd_var y i b k.
Proof. intros H Hk. unfold upd_var. case_decide; auto. Qed.

Lemma eval_cof b t i x : tt_eval (tt_cof b t i) x = tt_eval t (upd_var x i b).
Proof. unfold tt_cof. apply eval_sub. intros. by eapply upd_var_ext. Qed.
Lemma cof_wf b t i : tt_wf (tt_cof b t i).
Proof. apply sub_wf. Qed.

Lemma has_var_false t i : tt_wf t -> tt_has_var t i = false <->
  forall x b, tt_eval t (upd_var x i b) = tt_eval t x.
Proof.
  intros Hw. unfold tt_has_var. rewrite negb_false_iff, bool_decide_eq_true. split.
  - intros E x b. assert (H : forall c, tt_eval t (upd_var x i c) = tt_eval t (upd_var x i false)).
    { intros []; [|done]. by rewrite <- !eval_cof, E. }
    rewrite H, <- (H (x i)). apply eval_ext. intros k _. unfold upd_var. by case_decide; subst.
  - intros H. apply tt_ext; [apply cof_wf|apply cof_wf|done|]. intros x. by rewrite !eval_cof, !H.
Qed.
Lemma has_var_true t i : tt_wf t -> tt_has_var t i = true ->
  exists x, tt_eval t (upd_var x i false) <> tt_eval t (upd_var x i true).
Proof.
  intros Hw H. unfold tt_has_var in H. rewrite negb_true_iff, bool_decide_eq_false in H.
  destruct (decide (Exists (fun m => get_bit (tt_cof false t i) m <> get_bit (tt_cof true t i) m) (seq 0 (2 ^ nv t)))) as [Hex|Hno].
  - apply Exists_exists in Hex as (m & [_ Hm]%elem_of_seq & Hne). exists (Nat.testbit m). rewrite <- !eval_cof, <- !get_bit_eval; done.
  - destruct H. apply tt_ext; [apply cof_wf|apply cof_wf|done|]. intros x.
    destruct (decide (tt_eval (tt_cof false t i) x = tt_eval (tt_cof true t i) x)) as [?|Hx]; [done|].
    destruct Hno. apply Exists_exists. exists (idx (nv t) x). split; [|exact Hx].
    apply elem_of_seq. pose proof (idx_lt (nv t) x). lia.
Qed.

Lemma swapv_lt i j k n : i < n -> j < n -> k < n -> swapv i j k < n.
Proof. unfold swapv. repeat case_decide; lia. Qed.
Lemma swapv_invol i j k : swapv i j (swapv i j k) = k.
Proof. unfold swapv. repeat case_decide; lia. Qed.
Lemma eval_swap t i j x : i < nv t -> j < nv t ->
  tt_eval (tt_swap t i j) x = tt_eval t (fun k => x (swapv i j k)).
Proof. intros Hi Hj. unfold tt_swap. apply eval_sub. intros y z k H Hk. apply H. by apply swapv_lt. Qed.
Lemma swap_wf t i j : tt_wf (tt_swap t i j).
Proof. apply sub_wf. Qed.
Lemma eval_flip t i x : i < nv t -> tt_eval (tt_flip t i) x = tt_eval t (upd_var x i (negb (x i))).
Proof.
  intros Hi. unfold tt_flip. apply eval_sub. intros y z k H Hk. unfold upd_var. rewrite (H i Hi).
  case_decide; auto.
Qed.
Lemma flip_wf t i : tt_wf (tt_flip t i).
Proof. apply sub_wf. Qed.

Lemma extend_spec t n : nv t <= n ->
  exists t', tt_extend t n = Some t' /\ tt_wf t' /\ nv t' = n /\ forall x, tt_eval t' x = tt_eval t x.
Proof.
  intros Hn. unfold tt_extend. rewrite decide_True by done. eexists. split; [done|].
  split; [apply sub_wf|]. split; [done|]. intros x. apply eval_sub. intros y z k H Hk. apply H. lia.
Qed.

Lemma shrink_spec t n : tt_wf t -> n <= nv t ->
  (forall i, n <= i -> i < nv t -> tt_has_var t i = false) ->
  exists t', tt_shrink t n = Some t' /\ tt_wf t' /\ nv t' = n /\ forall x, tt_eval t' x = tt_eval t x.
Proof.
  intros Hw Hn Hv. unfold tt_shrink. rewrite decide_True by done. eexists. split; [done|].
  assert (Hp : 2 ^ n <= 2 ^ nv t) by (apply Nat.pow_le_mono_r; lia).
  split; [unfold tt_wf; cbn; rewrite take_length, Hw; lia|]. split; [done|]. intros x.
  assert (E : tt_eval t x = tt_eval t (fun k => if decide (k < n) then x k else false)).
  { assert (G : forall d, d <= nv t - n ->
      tt_eval t x = tt_eval t (fun k => if decide (nv t - d <= k) then false else x k)).
    { induction d as [|d IH]; intros Hd.
      - apply eval_ext. intros k Hk. rewrite decide_False by lia. done.
      - rewrite IH by lia.
        rewrite <- (proj1 (has_var_false t (nv t - S d) Hw) (Hv (nv t - S d) ltac:(lia) ltac:(lia)) _ false).
        apply eval_ext. intros k Hk. unfold upd_var. repeat case_decide; try lia; done. }
    rewrite (G (nv t - n)) by lia. apply eval_ext. intros k Hk.
    repeat case_decide; try lia; done. }
  rewrite E. unfold tt_eval, get_bit. cbn [nv tb]. rewrite !nth_lookup.
  rewrite lookup_take by apply idx_lt. f_equal. f_equal.
  clear - Hn. revert Hn. generalize (nv t) as N. intros N Hn.
  assert (forall d, idx n x = idx (n + d) (fun k => if decide (k < n) then x k else false)) as G.
  { induction d as [|d IH].
    - rewrite Nat.add_0_r. apply idx_ext. intros k Hk. by rewrite decide_True.
    - rewrite Nat.add_succ_r. cbn [idx]. rewrite <- IH. rewrite decide_False by lia. cbn [Nat.b2n]. lia. }
  rewrite (G (N - n)). f_equal. lia.
Qed.

(* t does not depend on variable i *)
Definition indep (t : tt) (i : nat) : Prop := forall x b, tt_eval t (upd_var x i b) = tt_eval t x.

(* t only depends on variables below l *)
Definition dep_below (t : tt) (l : nat) : Prop :=
  forall x y, (forall k, k < l -> x k = y k) -> tt_eval t x = tt_eval t y.

Lemma dep_below_nv t : dep_below t (nv t).
Proof. intros x y H. by apply eval_ext. Qed.

Lemma indep_dep_below t l : (forall i, l <= i -> i < nv t -> indep t i) -> dep_below t l.
Proof.
  intros Hi x y H.
  assert (G : forall d, tt_eval t x = tt_eval t (fun k => if decide (k < l) then x k else if decide (k < l + d) then y k else x k)).
  { induction d as [|d IH].
    - apply eval_ext. intros k Hk. repeat case_decide; try lia; done.
    - rewrite IH. destruct (decide (l + d < nv t)) as [Hlt|Hge].
      + rewrite <- (Hi (l + d) ltac:(lia) Hlt _ (y (l + d))).
        apply eval_ext. intros k Hk. unfold upd_var. repeat case_decide; subst; try lia; done.
      + apply eval_ext. intros k Hk. repeat case_decide; try lia; done. }
  rewrite (G (nv t)). apply eval_ext. intros k Hk. repeat case_decide; try lia; auto.
Qed.

Definition incr (l : list nat) : Prop := forall i j a b, i < j -> l !! i = Some a -> l !! j = Some b -> a < b.

Lemma incr_ge l : incr l -> forall i a, l !! i = Some a -> i <= a.
Proof.
  intros Hi i. induction i as [|i IH]; intros a Ha; [lia|].
  destruct (lookup_lt_is_Some_2 l i) as [b Hb]; [apply lookup_lt_Some in Ha; lia|].
  specialize (IH b Hb). specialize (Hi i (S i) b a ltac:(lia) Hb Ha). lia.
Qed.

Lemma expand_spec supp : incr supp -> forall t, Forall (fun s => s < nv t) supp -> tt_wf t ->
  exists t', tt_expand t supp = Some t' /\ tt_wf t' /\ nv t' = nv t /\
    (dep_below t (length supp) ->
     forall x y, (forall k s, supp !! k = Some s -> y k = x s) -> tt_eval t' x = tt_eval t y).
Proof.
  intros Hinc t Hlt Hw.
  assert (G : forall i, i <= length supp -> forall u, tt_wf u -> nv u = nv t ->
    exists t', expand_loop i supp u = Some t' /\ tt_wf t' /\ nv t' = nv t /\
     forall x, exists y, tt_eval t' x = tt_eval u y /\
       (forall k s, k < i -> supp !! k = Some s -> y k = x s) /\
       (forall k, i <= k -> (forall j s, j < i -> supp !! j = Some s -> s <> k) -> y k = x k)).
  { induction i as [|i IH]; intros Hi u Hu Hn.
    - exists u. split; [done|]. split; [done|]. split; [done|]. intros x. exists x. split; [done|]. split; intros; [lia|done].
    - cbn [expand_loop]. destruct (lookup_lt_is_Some_2 supp i) as [s Hs]; [lia|]. rewrite Hs. cbn.
      pose proof (incr_ge _ Hinc _ _ Hs) as Hge. rewrite decide_True by done.
      assert (Hsn : s < nv t) by (rewrite Forall_forall in Hlt; apply Hlt; by eapply elem_of_list_lookup_2).
      destruct (IH ltac:(lia) (tt_swap u i s) (swap_wf _ _ _) Hn) as (t' & E & Hw' & Hn' & Hx).
      exists t'. split; [done|]. split; [done|]. split; [done|]. intros x.
      destruct (Hx x) as (y & Ey & Hy1 & Hy2).
      exists (fun k => y (swapv i s k)). split; [|split].
      + rewrite Ey. apply eval_swap; lia.
      + intros k s' Hk Hs'. destruct (decide (k = i)) as [->|Hne].
        * unfold swapv. rewrite decide_True by done. assert (s' = s) as -> by congruence.
          apply Hy2; [done|]. intros j sj Hj Hsj. pose proof (Hinc j i sj s Hj Hsj Hs). lia.
        * unfold swapv. rewrite decide_False by done. rewrite decide_False by lia. apply Hy1; [lia|done].
      + intros k Hk Hno. unfold swapv. rewrite decide_False by lia.
        rewrite decide_False by (intros ->; apply (Hno i s); [lia|done|done]).
        apply Hy2; [lia|]. intros j sj Hj Hsj. apply (Hno j); [lia|done]. }
  destruct (G (length supp) ltac:(lia) t Hw eq_refl) as (t' & E & Hw' & Hn' & Hx).
  exists t'. split; [exact E|]. split; [done|]. split; [done|]. intros Hd x y Hy.
  destruct (Hx x) as (z & -> & Hz & _). apply Hd. intros k Hk.
  destruct (lookup_lt_is_Some_2 supp k Hk) as [s Hs]. by rewrite (Hz _ _ Hk Hs), (Hy _ _ Hs).
Qed.

Lemma incr_snoc l a : incr l -> Forall (fun b => b < a) l -> incr (l ++ [a]).
Proof.
  intros Hi Ha i j x y Hij Hx Hy.
  pose proof (lookup_lt_Some _ _ _ Hy) as Hl. rewrite app_length in Hl; cbn in Hl.
  rewrite lookup_app_l in Hx by lia.
  destruct (decide (j < length l)) as [H|H].
  - rewrite lookup_app_l in Hy by done. eapply (Hi i j); eauto.
  - rewrite lookup_app_r in Hy by lia. replace (j - length l) with 0 in Hy by lia. cbn in Hy.
    injection Hy as <-. rewrite Forall_forall in Ha. apply Ha. by eapply elem_of_list_lookup_2.
Qed.

Lemma min_base_spec t : tt_wf t ->
  let '(t', supp) := min_base t in
  tt_wf t' /\ nv t' = nv t /\ incr supp /\ Forall (fun s => s < nv t) supp /\
  (forall i, length supp <= i -> i < nv t -> tt_has_var t' i = false) /\
  (forall x y, (forall k s, supp !! k = Some s -> y k = x s) -> tt_eval t' y = tt_eval t x).
Proof.
  intros Hw0.
  assert (G : forall fuel i k t1 supp, fuel + i = nv t -> k <= i -> tt_wf t1 -> nv t1 = nv t ->
    length supp = k -> incr supp -> Forall (fun s => s < i) supp ->
    (forall j, k <= j -> j < i -> indep t1 j) ->
    (forall x y, (forall j s, supp !! j = Some s -> y j = x s) ->
                 (forall j, i <= j -> j < nv t -> y j = x j) -> tt_eval t1 y = tt_eval t x) ->
    let '(t', supp) := min_base_loop fuel i k t1 supp in
    tt_wf t' /\ nv t' = nv t /\ incr supp /\ Forall (fun s => s < nv t) supp /\
    (forall i, length supp <= i -> i < nv t -> tt_has_var t' i = false) /\
    (forall x y, (forall k s, supp !! k = Some s -> y k = x s) -> tt_eval t' y = tt_eval t x)).
  { induction fuel as [|fuel IH]; intros i k t1 supp Hf Hk Hw Hn Hl Hinc Hlt Hind Hev; cbn [min_base_loop].
    - split; [done|]. split; [done|]. split; [done|]. split; [by replace (nv t) with i by lia|]. split.
      + intros j Hj1 Hj2. apply has_var_false; [done|]. apply Hind; lia.
      + intros x y Hy. apply Hev; [done|]. intros. lia.
    - destruct (tt_has_var t1 i) eqn:Hv.
      + case_decide as Hki.
        * apply IH; try lia; try done.
          -- apply swap_wf.
          -- rewrite app_length; cbn; lia.
          -- by apply incr_snoc.
          -- rewrite Forall_app. split; [|repeat constructor]. eapply Forall_impl; [exact Hlt|]. cbn; lia.
          -- intros j Hj1 Hj2 x b. rewrite !eval_swap by lia.
             destruct (decide (j = i)) as [->|Hne].
             ++ rewrite <- (Hind k ltac:(lia) ltac:(lia) (fun k0 => x (swapv k i k0)) b).
                apply eval_ext. intros m Hm. unfold upd_var, swapv. repeat case_decide; subst; try lia; done.
             ++ rewrite <- (Hind j ltac:(lia) ltac:(lia) (fun k0 => x (swapv k i k0)) b).
                apply eval_ext. intros m Hm. unfold upd_var, swapv. repeat case_decide; subst; try lia; done.
          -- intros x y Hy1 Hy2. rewrite eval_swap by lia. apply Hev.
             ++ intros j s Hs. pose proof (lookup_lt_Some _ _ _ Hs) as Hj. unfold swapv.
                rewrite decide_False by lia. rewrite decide_False by lia. apply Hy1.
                by rewrite lookup_app_l.
             ++ intros j Hj1 Hj2. unfold swapv. rewrite decide_False by lia. case_decide as Hji.
                ** subst j. apply Hy1. rewrite lookup_app_r by lia. by rewrite Hl, Nat.sub_diag.
                ** apply Hy2; lia.
        * assert (k = i) as -> by lia. apply IH; try lia; try done.
          -- rewrite app_length; cbn; lia.
          -- by apply incr_snoc.
          -- rewrite Forall_app. split; [|repeat constructor]. eapply Forall_impl; [exact Hlt|]. cbn; lia.
          -- intros x y Hy1 Hy2. apply Hev.
             ++ intros j s Hs. apply Hy1. rewrite lookup_app_l; [done|]. by apply lookup_lt_Some in Hs.
             ++ intros j Hj1 Hj2. destruct (decide (j = i)) as [->|Hne]; [|apply Hy2; lia].
                apply Hy1. rewrite lookup_app_r by lia. by rewrite Hl, Nat.sub_diag.
      + apply IH; try lia; try done.
        * eapply Forall_impl; [exact Hlt|]. cbn; lia.
        * intros j Hj1 Hj2. destruct (decide (j = i)) as [->|Hne]; [|apply Hind; lia].
          exact (proj1 (has_var_false t1 i Hw) Hv).
        * intros x y Hy1 Hy2. rewrite <- (proj1 (has_var_false t1 i Hw) Hv y (x i)). apply Hev.
          -- intros j s Hs. unfold upd_var. case_decide as Hji.
             ++ pose proof (lookup_lt_Some _ _ _ Hs). lia.
             ++ by apply Hy1.
          -- intros j Hj1 Hj2. unfold upd_var. case_decide; [by subst|apply Hy2; lia]. }
  unfold min_base. apply G; try lia; try done.
  intros x y _ H. apply eval_ext. intros j Hj. apply H; lia.
Qed.
