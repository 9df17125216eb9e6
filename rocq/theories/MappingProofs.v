(* The mapping view refines a map from nodes to cells. *)
From Verif Require Import Base Aig AigSem AigProofs AigApi AigReach Clean NetProofs CleanProofs Tt TtProofs TtCache TtCacheProofs
  Klut KlutSem KlutProofs Isop IsopProofs Cnf CnfProofs Mapping.

Lemma fold_opt_app {A B} (f : B -> A -> option B) l1 l2 b :
  fold_opt f b (l1 ++ l2) = b' ← fold_opt f b l1; fold_opt f b' l2.
Proof. revert b. induction l1 as [|x l IH]; intros b; [done|]. cbn. destruct (f b x); [|done]. cbn. apply IH. Qed.

Lemma repeat_lookup_some {A} (x : A) n k : k < n -> repeat x n !! k = Some x.
Proof. revert k. induction n as [|n IH]; intros [|k] Hk; cbn; try lia; [done|]. apply IH. lia. Qed.

Lemma u32_small x : (x < 2 ^ 32)%N -> u32 x = x.
Proof. apply N.mod_small. Qed.

Definition mapped_count (c : nat -> option (list nat)) (n : nat) : nat :=
  length (filter (fun k => is_Some (c k)) (seq 0 n)).
Lemma count_le c n : mapped_count c n <= n.
Proof. unfold mapped_count. pose proof (filter_length (fun k => is_Some (c k)) (seq 0 n)). rewrite seq_length in H. lia. Qed.
Lemma filter_ext_elem (P Q : nat -> Prop) `{!forall x, Decision (P x), !forall x, Decision (Q x)} l :
  (forall x, x ∈ l -> P x <-> Q x) -> length (filter P l) = length (filter Q l).
Proof.
  induction l as [|x l IH]; intros HPQ; [done|]. rewrite !filter_cons.
  assert (Hx : P x <-> Q x) by (apply HPQ, elem_of_list_here).
  assert (IH' : length (filter P l) = length (filter Q l)) by (apply IH; intros y Hy; apply HPQ; by right).
  destruct (decide (P x)), (decide (Q x)); cbn; try tauto; congruence.
Qed.
Lemma count_upd c n x size : n < size ->
  mapped_count (upd n x c) size + (if decide (is_Some (c n)) then 1 else 0)
  = mapped_count c size + (if decide (is_Some x) then 1 else 0).
Proof.
  intros Hn. unfold mapped_count.
  replace (seq 0 size) with (seq 0 n ++ n :: seq (S n) (size - S n)).
  2:{ replace size with (n + S (size - S n)) at 2 by lia. rewrite seq_app. done. }
  rewrite !filter_app, !app_length, !filter_cons.
  rewrite (filter_ext_elem (fun k => is_Some (upd n x c k)) (fun k => is_Some (c k)) (seq 0 n)).
  2:{ intros k [_ Hk]%elem_of_seq. unfold upd. rewrite decide_False by lia. done. }
  pose proof (filter_ext_elem (fun k => is_Some (upd n x c k)) (fun k => is_Some (c k)) (seq (S n) (size - S n))) as E2.
  assert (E : upd n x c n = x) by (unfold upd; by rewrite decide_True).
  rewrite E.
  destruct (decide (is_Some (c n))) as [H2|H2]; destruct (decide (is_Some x)) as [H3|H3]; cbn [length];
    rewrite E2; try lia; intros k [Hk _]%elem_of_seq; unfold upd; rewrite decide_False by lia; done.
Qed.
Lemma count_none c size : (forall n, c n = None) -> mapped_count c size = 0.
Proof.
  intros H. unfold mapped_count. induction (seq 0 size) as [|x l IH]; [done|]. rewrite filter_cons.
  rewrite decide_False; [done|]. rewrite H. by intros [].
Qed.

(* the words of a cell at position i *)
Definition cell_at (w : list N) (i : nat) (l : list nat) : Prop :=
  w !! i = Some (N.of_nat (length l)) /\ i + 1 + length l <= length w /\
  forall j c, l !! j = Some c -> w !! (i + 1 + j) = Some (N.of_nat c).

Record minv (size : nat) (ops : list mop) (m : mview) : Prop := {
  mi_len : size <= length (mm m) <= size + sum_list (map mop_words ops);
  mi_cell : forall n, n < size -> match cells ops n with
    | None => mm m !! n = Some 0%N
    | Some l => exists i, mm m !! n = Some (N.of_nat i) /\ size <= i /\ cell_at (mm m) i l
    end;
  mi_size : msz m = N.of_nat (mapped_count (cells ops) size);
  mi_fn : forall n, n < size -> exists lit, mfn m !! n = Some lit /\ cache_get lit (mcache m) = Some (functions ops n);
  mi_fnlen : length (mfn m) = size;
  mi_cinv : cinv (mcache m);
  mi_tab : length (cdata (mcache m)) <= 1 + sum_list (map mop_tables ops)
}.

Lemma cells_snoc ops o : cells (ops ++ [o]) = cells_step (cells ops) o.
Proof. unfold cells. by rewrite fold_left_app. Qed.
Lemma functions_snoc ops o : functions (ops ++ [o]) = functions_step (functions ops) o.
Proof. unfold functions. by rewrite fold_left_app. Qed.
Lemma sum_snoc {A} (f : A -> nat) l x : sum_list (map f (l ++ [x])) = sum_list (map f l) + f x.
Proof. induction l as [|y l IH]; cbn; [lia|]. rewrite IH. lia. Qed.

Lemma cell_at_insert w i l n x : n < i -> cell_at w i l -> cell_at (<[n := x]> w) i l.
Proof.
  intros Hn (H1 & H2 & H3). split; [|split].
  - by rewrite list_lookup_insert_ne by lia.
  - by rewrite insert_length.
  - intros j c Hj. rewrite list_lookup_insert_ne by lia. by apply H3.
Qed.
Lemma cell_at_app w i l t : cell_at w i l -> cell_at (w ++ t) i l.
Proof.
  intros (H1 & H2 & H3). split; [|split].
  - by apply lookup_app_l_Some.
  - rewrite app_length. lia.
  - intros j c Hj. apply lookup_app_l_Some. by apply H3.
Qed.

Lemma cinv_empty : cinv cache_empty.
Proof.
  split; cbn; [done|constructor|]. intros t i. split; [done|]. by rewrite lookup_nil.
Qed.
Lemma const_wf n b : tt_wf (tt_const n b).
Proof. unfold tt_wf, tt_const. cbn. apply repeat_length. Qed.

Lemma mv_init_inv size : minv size [] (mv_init size).
Proof.
  assert (Hc : cinv (mcache (mv_init size)) /\ cache_get 0 (mcache (mv_init size)) = Some (tt_const 0 false)).
  { cbn [mv_init mcache]. destruct (cache_insert (tt_const 0 false) cache_empty) as [l c] eqn:E. cbn [snd].
    assert (Hl : (N.of_nat (length (cdata c)) <= 2 ^ 31)%N).
    { pose proof (insert_length_le _ _ _ _ E) as H. cbn in H. lia. }
    pose proof (insert_spec _ _ _ _ cinv_empty (const_wf 0 false) E Hl) as (H & _). split; [done|].
    pose proof (cache_get_insert _ _ _ _ cinv_empty (const_wf 0 false) E Hl) as G.
    assert (l = 0%N) as -> by (cbn in E; by injection E as <-). done. }
  destruct Hc as [Hc1 Hc2].
  split; cbn [mv_init mm msz mfn map sum_list].
  - rewrite repeat_length. cbn. lia.
  - intros n Hn. cbn. by apply repeat_lookup_some.
  - rewrite count_none; done.
  - intros n Hn. exists 0%N. split; [by apply repeat_lookup_some|]. done.
  - apply repeat_length.
  - done.
  - cbn. lia.
Qed.

Lemma mstep_inv size ops o m : minv size ops m -> mop_ok size o ->
  (N.of_nat (size + sum_list (map mop_words (ops ++ [o]))) < 2 ^ 32)%N ->
  (N.of_nat (1 + sum_list (map mop_tables (ops ++ [o]))) <= 2 ^ 31)%N ->
  exists m', mstep size m o = Some m' /\ minv size (ops ++ [o]) m'.
Proof.
  intros [Hlen Hcell Hsz Hfn Hfl Hci Htab] Hok Hw Ht. rewrite !sum_snoc in Hw, Ht.
  pose proof (count_le (cells ops) size) as Hcl.
  destruct o as [n l|n| |n f]; cbn [mstep mop_words mop_tables mop_ok] in *.
  - (* add *)
    destruct Hok as [Hn Hl]. unfold add_to_mapping.
    destruct (lookup_lt_is_Some_2 (mm m) n) as [x Hx]; [lia|]. rewrite Hx. cbn [mbind option_bind].
    eexists. split; [reflexivity|]. rewrite !u32_small by lia.
    assert (Em : map (fun l => u32 (N.of_nat l)) l = map N.of_nat l).
    { rewrite Forall_forall in Hl. clear -Hl Hw. revert Hl. induction l as [|c l IH]; intros Hl; [done|]. cbn [map].
      rewrite IH by (cbn [length] in *; try lia; intros y Hy; apply Hl; by right). f_equal. apply u32_small.
      specialize (Hl c ltac:(apply elem_of_list_here)). lia. }
    rewrite Em.
    set (w := <[n := N.of_nat (length (mm m))]> (mm m)).
    assert (Hwl : length w = length (mm m)) by apply insert_length.
    split; cbn [mm msz mfn mcache].
    + rewrite sum_snoc, app_length, Hwl. cbn [length mop_words]. rewrite map_length. lia.
    + intros k Hk. rewrite cells_snoc. cbn [cells_step]. unfold upd. case_decide as Hkn.
      * subst k. exists (length (mm m)). split; [apply lookup_app_l_Some; unfold w; rewrite list_lookup_insert; [done|lia]|].
        split; [lia|]. split; [|split].
        -- rewrite lookup_app_r, Hwl, Nat.sub_diag by lia. done.
        -- rewrite app_length, Hwl. cbn [length]. rewrite map_length. lia.
        -- intros j c Hj. rewrite lookup_app_r, Hwl by lia. replace (length (mm m) + 1 + j - length (mm m)) with (S j) by lia.
           change (map N.of_nat l !! j = Some (N.of_nat c)). by rewrite map_lookup, Hj.
      * specialize (Hcell k Hk). destruct (cells ops k) as [lk|].
        -- destruct Hcell as (i & Hi & Hsi & Hc). exists i. split; [|split; [done|]].
           ++ apply lookup_app_l_Some. unfold w. by rewrite list_lookup_insert_ne by done.
           ++ apply cell_at_app, cell_at_insert; [lia|done].
        -- apply lookup_app_l_Some. unfold w. by rewrite list_lookup_insert_ne by done.
    + rewrite cells_snoc. cbn [cells_step]. pose proof (count_upd (cells ops) n (Some l) size Hn) as Hu.
      rewrite (decide_True (P := is_Some (Some l))) in Hu by done.
      specialize (Hcell n Hn). destruct (cells ops n) as [ln|] eqn:En.
      * destruct Hcell as (i & Hi & Hsi & _). rewrite decide_True in Hu by done. rewrite decide_False; [lia|].
        intros ->. rewrite Hx in Hi. injection Hi as Hi. lia.
      * rewrite decide_False in Hu by (by intros []). rewrite decide_True by congruence. lia.
    + intros k Hk. rewrite functions_snoc. cbn [functions_step]. by apply Hfn.
    + done.
    + done.
    + rewrite sum_snoc. cbn. lia.
  - (* remove *)
    unfold remove_from_mapping. destruct (lookup_lt_is_Some_2 (mm m) n) as [x Hx]; [lia|]. rewrite Hx. cbn [mbind option_bind].
    eexists. split; [reflexivity|]. split; cbn [mm msz mfn mcache].
    + rewrite insert_length, sum_snoc. lia.
    + intros k Hk. rewrite cells_snoc. cbn [cells_step]. unfold upd. case_decide as Hkn.
      * subst k. rewrite list_lookup_insert; [done|lia].
      * specialize (Hcell k Hk). rewrite list_lookup_insert_ne by done. destruct (cells ops k) as [lk|]; [|done].
        destruct Hcell as (i & Hi & Hsi & Hc). exists i. split; [done|]. split; [done|]. apply cell_at_insert; [lia|done].
    + rewrite cells_snoc. cbn [cells_step]. pose proof (count_upd (cells ops) n None size Hok) as Hu.
      rewrite (decide_False (P := is_Some (@None (list nat)))) in Hu by (by intros []).
      specialize (Hcell n Hok). destruct (cells ops n) as [ln|] eqn:En.
      * destruct Hcell as (i & Hi & Hsi & _). rewrite decide_True in Hu by done. rewrite decide_False.
        2:{ intros ->. rewrite Hx in Hi. injection Hi as Hi. lia. }
        rewrite Hsz. unfold u32. replace (N.of_nat (mapped_count (cells ops) size) + (2 ^ 32 - 1))%N
          with (N.of_nat (mapped_count (upd n None (cells ops)) size) + 1 * 2 ^ 32)%N by lia.
        rewrite N.mod_add by lia. apply N.mod_small. lia.
      * rewrite decide_False in Hu by (by intros []). rewrite decide_True by congruence. lia.
    + intros k Hk. rewrite functions_snoc. cbn [functions_step]. by apply Hfn.
    + done.
    + done.
    + rewrite sum_snoc. cbn. lia.
  - (* clear *)
    eexists. split; [reflexivity|]. split; cbn [clear_mapping mm msz mfn mcache].
    + rewrite repeat_length, sum_snoc. lia.
    + intros k Hk. rewrite cells_snoc. cbn. by apply repeat_lookup_some.
    + rewrite cells_snoc. cbn [cells_step]. by rewrite count_none.
    + intros k Hk. rewrite functions_snoc. cbn [functions_step]. by apply Hfn.
    + done.
    + done.
    + rewrite sum_snoc. cbn. lia.
  - (* set *)
    destruct Hok as [Hn Hf]. unfold set_cell_function. destruct (Hfn n Hn) as (lit & Hlit & _). rewrite Hlit. cbn [mbind option_bind].
    destruct (cache_insert f (mcache m)) as [l c] eqn:E. eexists. split; [reflexivity|].
    pose proof (insert_length_le _ _ _ _ E) as Hlc.
    assert (Hr : (N.of_nat (length (cdata c)) <= 2 ^ 31)%N) by lia.
    pose proof (insert_spec _ _ _ _ Hci Hf E Hr) as (Hci' & [r Hr'] & _).
    pose proof (cache_get_insert _ _ _ _ Hci Hf E Hr) as Hg.
    split; cbn [mm msz mfn mcache].
    + rewrite sum_snoc. lia.
    + intros k Hk. rewrite cells_snoc. by apply Hcell.
    + by rewrite cells_snoc.
    + intros k Hk. rewrite functions_snoc. cbn [functions_step]. unfold upd. case_decide as Hkn.
      * subst k. exists l. split; [rewrite list_lookup_insert; [done|lia]|done].
      * destruct (Hfn k Hk) as (lk & Hlk & Hgk). exists lk. split; [by rewrite list_lookup_insert_ne|].
        unfold cache_get in *. rewrite Hr'. destruct (cdata (mcache m) !! N.to_nat (lk / 2)) eqn:E2; [|done].
        by rewrite (lookup_app_l_Some _ _ _ _ E2).
    + by rewrite insert_length.
    + done.
    + rewrite sum_snoc. cbn. lia.
Qed.

Lemma mrun_inv size ops : Forall (mop_ok size) ops ->
  (N.of_nat (size + sum_list (map mop_words ops)) < 2 ^ 32)%N ->
  (N.of_nat (1 + sum_list (map mop_tables ops)) <= 2 ^ 31)%N ->
  exists m, mrun size ops (mv_init size) = Some m /\ minv size ops m.
Proof.
  induction ops as [|o ops IH] using rev_ind; intros Hok Hw Ht.
  - exists (mv_init size). split; [done|apply mv_init_inv].
  - rewrite Forall_app, Forall_singleton in Hok. destruct Hok as [Hok Ho]. rewrite !sum_snoc in Hw, Ht.
    destruct IH as (m & E & Hi); [done|lia|lia|]. rewrite <- !sum_snoc in Hw, Ht.
    destruct (mstep_inv size ops o m Hi Ho Hw Ht) as (m' & E' & Hi').
    exists m'. split; [|done]. unfold mrun in *. rewrite fold_opt_app, E. cbn. by rewrite E'.
Qed.

Lemma cell_fanin_at m n i l : mm m !! n = Some (N.of_nat i) -> cell_at (mm m) i l -> cell_fanin m n = Some l.
Proof.
  intros Hn (H1 & H2 & H3). unfold cell_fanin. rewrite Hn. cbn [mbind option_bind]. rewrite Nat2N.id, H1. cbn [mbind option_bind].
  rewrite Nat2N.id. rewrite decide_True by lia. f_equal.
  apply list_eq. intros j. rewrite map_lookup.
  destruct (l !! j) as [c|] eqn:E.
  - rewrite lookup_take by (by eapply lookup_lt_Some). rewrite lookup_drop, (H3 j c E). cbn. by rewrite Nat2N.id.
  - apply lookup_ge_None in E. rewrite lookup_take_ge by lia. done.
Qed.
