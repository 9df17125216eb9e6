From stdpp Require Import sorting.
From Verif Require Import Base Aig AigSem AigProofs AigApi AigReach Tt TtProofs Isop IsopProofs Factor.

(* ---------- words as literal sets ---------- *)
Definition sub (a b : N) : Prop := forall n, N.testbit a n = true -> N.testbit b n = true.

Lemma sub_land c d : N.land c d = d <-> sub d c.
Proof.
  split.
  - intros <- n. rewrite N.land_spec. by intros [? _]%andb_true_iff.
  - intros H. apply N.bits_inj. intros n. rewrite N.land_spec. specialize (H n).
    destruct (N.testbit d n); [by rewrite H|by rewrite andb_false_r].
Qed.
Lemma land0 a b : N.land a b = 0%N <-> forall n, N.testbit a n = true -> N.testbit b n = true -> False.
Proof.
  split.
  - intros H n Ha Hb. assert (E : N.testbit (N.land a b) n = false) by (by rewrite H, N.bits_0).
    rewrite N.land_spec, Ha, Hb in E. done.
  - intros H. apply N.bits_inj_0. intros n. rewrite N.land_spec. specialize (H n).
    destruct (N.testbit a n), (N.testbit b n); try done. by destruct H.
Qed.
Lemma sub_refl a : sub a a. Proof. by intros n. Qed.
Lemma sub_trans a b c : sub a b -> sub b c -> sub a c. Proof. intros H1 H2 n ?. auto. Qed.
Lemma sub_antisym a b : sub a b -> sub b a -> a = b.
Proof. intros H1 H2. apply N.bits_inj. intros n. specialize (H1 n). specialize (H2 n). destruct (N.testbit a n), (N.testbit b n); try done; intuition congruence. Qed.
Lemma sub_lor a b c : sub (N.lor a b) c <-> sub a c /\ sub b c.
Proof.
  split.
  - intros H. split; intros n Hn; apply H; rewrite N.lor_spec, Hn; [done|apply orb_true_r].
  - intros [H1 H2] n. rewrite N.lor_spec, orb_true_iff. intros []; auto.
Qed.
Lemma sub_lor_l a b : sub a (N.lor a b). Proof. intros n H. by rewrite N.lor_spec, H. Qed.
Lemma sub_lor_r a b : sub b (N.lor a b). Proof. intros n H. by rewrite N.lor_spec, H, orb_true_r. Qed.
Lemma sub_0 a : sub 0 a. Proof. intros n. by rewrite N.bits_0. Qed.
Lemma lor_ldiff c d : sub d c -> N.lor (N.ldiff c d) d = c.
Proof.
  intros H. apply N.bits_inj. intros n. rewrite N.lor_spec, N.ldiff_spec. specialize (H n).
  destruct (N.testbit c n), (N.testbit d n); try done. by discriminate H.
Qed.
Lemma ldiff_apart c d : N.land (N.ldiff c d) d = 0%N.
Proof. apply land0. intros n. rewrite N.ldiff_spec. by destruct (N.testbit d n); rewrite ?andb_false_r. Qed.
Lemma ldiff_lor q d : N.land q d = 0%N -> N.ldiff (N.lor q d) d = q.
Proof.
  rewrite land0. intros H. apply N.bits_inj. intros n. rewrite N.ldiff_spec, N.lor_spec. specialize (H n).
  destruct (N.testbit q n), (N.testbit d n); try done. by destruct H.
Qed.
Lemma ldiff_sub c d : sub (N.ldiff c d) c.
Proof. intros n. rewrite N.ldiff_spec. by intros [? _]%andb_true_iff. Qed.
Lemma lor_cancel q a b : N.land q a = 0%N -> N.land q b = 0%N -> N.lor q a = N.lor q b -> a = b.
Proof.
  intros Ha Hb E. rewrite N.land_comm in Ha, Hb. rewrite <- (ldiff_lor a q Ha), <- (ldiff_lor b q Hb). f_equal.
  by rewrite !(N.lor_comm _ q).
Qed.
Lemma bit_ex c : c <> 0%N -> exists n, N.testbit c n = true.
Proof.
  intros H. destruct (N.testbit c (N.log2 c)) eqn:E; [eauto|]. rewrite N.bit_log2 in E; done.
Qed.
Lemma below_bits k c : (c < 2 ^ k)%N <-> forall n, N.testbit c n = true -> (n < k)%N.
Proof.
  split.
  - intros H n Hn. destruct (decide (n < k)%N); [done|]. exfalso.
    destruct (decide (c = 0%N)) as [->|Hc]; [by rewrite N.bits_0 in Hn|].
    rewrite N.bits_above_log2 in Hn; [done|]. apply N.log2_lt_pow2 in H; lia.
  - intros H. destruct (decide (c = 0%N)) as [->|Hc]; [apply N.neq_0_lt_0, N.pow_nonzero; lia|].
    apply N.log2_lt_pow2; [lia|]. apply H. by apply N.bit_log2.
Qed.
Lemma sub_below k a b : sub a b -> (b < 2 ^ k)%N -> (a < 2 ^ k)%N.
Proof. rewrite !below_bits. auto. Qed.
Lemma lor_below k a b : (a < 2 ^ k)%N -> (b < 2 ^ k)%N -> (N.lor a b < 2 ^ k)%N.
Proof. rewrite !below_bits. intros Ha Hb n. rewrite N.lor_spec, orb_true_iff. intros []; auto. Qed.

(* ---------- counting literals ---------- *)
Definition pop (c : N) : nat := length (filter (fun l => has_lit c l = true) (seq 0 64)).
Fixpoint ppop (p : positive) : nat := match p with xH => 1 | xO q => ppop q | xI q => S (ppop q) end.

Lemma count_double fuel c : count_go fuel (N.double c) = count_go fuel c.
Proof.
  revert c. induction fuel as [|f IH]; intros c; [done|]. cbn [count_go]. destruct c as [|p]; [done|].
  rewrite !decide_False by done. f_equal.
  assert (E : N.land (N.double (Npos p)) (N.double (Npos p) - 1) = N.double (N.land (Npos p) (Npos p - 1))).
  { apply N.bits_inj. intros n. rewrite N.land_spec.
    assert (Ed : (N.double (Npos p) - 1 = N.succ_double (Npos p - 1))%N) by (rewrite N.double_spec, N.succ_double_spec; lia).
    rewrite Ed. destruct n as [|n] using N.peano_ind; [by rewrite !N.double_spec, !N.testbit_even_0|].
    rewrite !N.double_spec, N.succ_double_spec. by rewrite N.testbit_odd_succ, !N.testbit_even_succ, N.land_spec by lia. }
  rewrite E. apply IH.
Qed.
Lemma count_pos fuel p : ppop p <= fuel -> count_go fuel (Npos p) = ppop p.
Proof.
  revert fuel. induction p as [p IH|p IH|]; intros fuel H; cbn [ppop] in *.
  - destruct fuel as [|f]; [lia|]. cbn [count_go]. rewrite decide_False by done. f_equal.
    assert (E : N.land (Npos p~1) (Npos p~1 - 1) = N.double (Npos p)).
    { apply N.bits_inj. intros n. rewrite N.land_spec.
      assert (Ed : (Npos p~1 - 1 = N.double (Npos p))%N) by (by destruct p). rewrite Ed.
      change (Npos p~1) with (N.succ_double (Npos p)).
      destruct n as [|n] using N.peano_ind; [by rewrite !N.double_spec, N.testbit_even_0, andb_false_r|].
      rewrite !N.double_spec, N.succ_double_spec. rewrite N.testbit_odd_succ, !N.testbit_even_succ by lia. apply andb_diag. }
    rewrite E, count_double. apply IH. lia.
  - change (Npos p~0) with (N.double (Npos p)). rewrite count_double. by apply IH.
  - destruct fuel as [|f]; [lia|]. cbn [count_go]. rewrite decide_False by done. by destruct f.
Qed.
Lemma filter_seq_S (P Q : nat -> Prop) {HP : forall x, Decision (P x)} {HQ : forall x, Decision (Q x)} k n :
  (forall l, P (S l) <-> Q l) -> length (filter P (seq (S k) n)) = length (filter Q (seq k n)).
Proof.
  intros H. revert k. induction n as [|n IH]; intros k; [done|]. cbn [seq]. rewrite !filter_cons.
  destruct (decide (P (S k))) as [Hp|Hp], (decide (Q k)) as [Hq|Hq]; cbn [length]; rewrite ?IH; try done.
  - by apply H in Hp. - by apply H in Hq.
Qed.
Lemma ppop_spec p n : (Npos p < 2 ^ N.of_nat n)%N -> length (filter (fun l => has_lit (Npos p) l = true) (seq 0 n)) = ppop p.
Proof.
  revert n. induction p as [p IH|p IH|]; intros n H.
  - destruct n as [|n]; [by cbn in H; lia|]. cbn [seq]. rewrite filter_cons_True by done. cbn [length ppop]. f_equal.
    rewrite (filter_seq_S _ (fun l => has_lit (Npos p) l = true)).
    + apply IH. rewrite Nat2N.inj_succ, N.pow_succ_r in H by lia. lia.
    + intros l. unfold has_lit. rewrite Nat2N.inj_succ. change (Npos p~1) with (2 * Npos p + 1)%N. by rewrite N.testbit_odd_succ by lia.
  - destruct n as [|n]; [by cbn in H; lia|]. cbn [seq]. rewrite filter_cons_False by done. cbn [ppop].
    rewrite (filter_seq_S _ (fun l => has_lit (Npos p) l = true)).
    + apply IH. rewrite Nat2N.inj_succ, N.pow_succ_r in H by lia. lia.
    + intros l. unfold has_lit. rewrite Nat2N.inj_succ. change (Npos p~0) with (2 * Npos p)%N. by rewrite N.testbit_even_succ by lia.
  - destruct n as [|n]; [by cbn in H; lia|]. cbn [seq]. rewrite filter_cons_True by done. cbn [length ppop]. f_equal.
    destruct (filter _ _) as [|x l] eqn:E; [done|]. exfalso.
    assert (Hx : x ∈ x :: l) by left. rewrite <- E in Hx. apply elem_of_list_filter in Hx as [Hx Hi].
    apply elem_of_seq in Hi. unfold has_lit in Hx. rewrite N.bits_above_log2 in Hx; [done|]. cbn. lia.
Qed.
Lemma count_lit_pop c : (c < 2 ^ 64)%N -> cube_count_lit c = pop c.
Proof.
  intros H. unfold cube_count_lit. destruct c as [|p]; [done|].
  assert (E : pop (Npos p) = ppop p) by (by apply ppop_spec). rewrite E. apply count_pos. rewrite <- E.
  unfold pop. etrans; [apply filter_length|]. by rewrite seq_length.
Qed.

Lemma pop_lor a b : N.land a b = 0%N -> pop (N.lor a b) = pop a + pop b.
Proof.
  rewrite land0. intros H. unfold pop. generalize (seq 0 64). intros ls. induction ls as [|l ls IH]; [done|].
  rewrite !filter_cons.
  assert (E : has_lit (N.lor a b) l = has_lit a l || has_lit b l) by (unfold has_lit; by rewrite N.lor_spec).
  specialize (H (N.of_nat l)). fold (has_lit a l) (has_lit b l) in H.
  destruct (has_lit a l), (has_lit b l); cbn [orb] in E; rewrite E; repeat case_decide; try done; cbn [length]; lia.
Qed.
Lemma pop_pos c : (c < 2 ^ 64)%N -> c <> 0%N -> 0 < pop c.
Proof.
  intros H Hc. destruct (bit_ex c Hc) as [n Hn]. pose proof (proj1 (below_bits _ _) H _ Hn) as Hl. unfold pop.
  assert (He : N.to_nat n ∈ filter (fun l => has_lit c l = true) (seq 0 64)).
  { apply elem_of_list_filter. split; [unfold has_lit; by rewrite N2Nat.id|]. apply elem_of_seq. lia. }
  destruct (filter _ _); [by apply elem_of_nil in He|]. cbn. lia.
Qed.
Lemma pop_0 : pop 0 = 0. Proof. done. Qed.
Lemma pop_sub a b : sub a b -> pop a <= pop b.
Proof.
  intros H. rewrite <- (lor_ldiff b a H), pop_lor by apply ldiff_apart. lia.
Qed.

Arguments pop : simpl never.
Arguments cube_count_lit : simpl never.
Arguments prod_val : simpl never.

(* literals of a sum of products *)
Definition lits (f : sop) : nat := sum_list (map pop f).
Definition small (f : sop) : Prop := Forall (fun c => (c < 2 ^ 64)%N) f.
Lemma unmarked_small f : unmarked f -> small f.
Proof. intros Hf. eapply Forall_impl; [exact Hf|]. intros c H. cbn beta in H. etrans; [exact H|]. by apply N.pow_lt_mono_r. Qed.
Lemma count_lits f : small f -> sop_count_lit f = lits f.
Proof. intros H. unfold sop_count_lit, lits. f_equal. induction H; [done|]. cbn. f_equal; [by apply count_lit_pop|done]. Qed.
Lemma lits_perm f g : f ≡ₚ g -> lits f = lits g.
Proof. intros H. unfold lits. by rewrite H. Qed.
Lemma lits_app f g : lits (f ++ g) = lits f + lits g.
Proof. unfold lits. rewrite map_app. induction (map pop f) as [|x l IH]; cbn; [done|]. rewrite IH. lia. Qed.
Lemma lits_cons c f : lits (c :: f) = pop c + lits f. Proof. done. Qed.
Lemma lits_map_lor q ds : (forall d, d ∈ ds -> N.land q d = 0%N) -> lits (map (N.lor q) ds) = length ds * pop q + lits ds.
Proof.
  induction ds as [|d ds IH]; intros H; [done|]. cbn [map length]. rewrite !lits_cons, IH, pop_lor; [lia| |].
  - apply H. left. - intros d' Hd. apply H. by right.
Qed.
Lemma lits_product ds qs : apart qs ds -> lits (product ds qs) = length ds * lits qs + length qs * lits ds.
Proof.
  induction qs as [|q qs IH]; intros H; [cbn; lia|]. cbn [product flat_map length]. rewrite lits_app, lits_cons.
  rewrite lits_map_lor by (intros d Hd; apply H; [left|done]). unfold product in IH. rewrite IH; [lia|].
  intros q' d Hq Hd. apply H; [by right|done].
Qed.
Lemma lits_elem c f : c ∈ f -> pop c <= lits f.
Proof. induction 1; rewrite lits_cons; lia. Qed.

(* ---------- values ---------- *)
Lemma prod_val_spec x c : (c < 2 ^ 64)%N -> prod_val x c = true <-> forall l, has_lit c l = true -> lit_val x l = true.
Proof.
  intros Hc. unfold prod_val. rewrite forallb_forall. split.
  - intros H l Hl. specialize (H l). unfold has_lit in Hl. rewrite Hl in H. apply H. apply in_seq.
    apply (proj1 (below_bits _ _) Hc) in Hl. lia.
  - intros H l _. specialize (H l). unfold has_lit in H. destruct (N.testbit c (N.of_nat l)); [|done]. by rewrite H.
Qed.
Lemma prod_val_lor x a b : prod_val x (N.lor a b) = prod_val x a && prod_val x b.
Proof.
  unfold prod_val. generalize (seq 0 64). intros ls. induction ls as [|l ls IH]; [done|]. cbn [forallb]. rewrite IH, N.lor_spec.
  destruct (N.testbit a _), (N.testbit b _), (lit_val x l); cbn [implb orb andb]; rewrite ?andb_false_r; try done;
    destruct (forallb _ ls); cbn; try done; by rewrite ?andb_true_r.
Qed.
Lemma sop_val_true x f : sop_val x f = true <-> exists c, c ∈ f /\ prod_val x c = true.
Proof. unfold sop_val. rewrite existsb_exists. by setoid_rewrite elem_of_list_In. Qed.
Lemma bool_iff (a b : bool) : (a = true <-> b = true) -> a = b.
Proof. destruct a, b; intuition congruence. Qed.

(* ---------- division ---------- *)
Definition enc (p : N * bool) : N := if p.2 then mark p.1 else p.1.
Definition sel (b : bool) (ps : list (N * bool)) : sop := (filter (fun p => p.2 = b) ps).*1.
Definition low (ps : list (N * bool)) : Prop := Forall (fun p => (p.1 < 2 ^ 63)%N) ps.

Lemma bit63 c : (c < 2 ^ 63)%N -> N.testbit c 63 = false.
Proof. intros H. destruct (N.testbit c 63) eqn:E; [|done]. apply (proj1 (below_bits _ _) H) in E. lia. Qed.
Lemma covered_enc p : (p.1 < 2 ^ 63)%N -> covered63 (enc p) = p.2.
Proof.
  intros H. unfold covered63, has_lit, enc, mark. change (N.of_nat 63) with 63%N. destruct (p.2).
  - rewrite N.lor_spec, N.pow2_bits_true. apply orb_true_r.
  - by apply bit63.
Qed.
Lemma unmark_enc p : (p.1 < 2 ^ 63)%N -> (if covered63 (enc p) then N.ldiff (enc p) (2 ^ 63) else enc p) = p.1.
Proof.
  intros H. rewrite covered_enc by done. unfold enc, mark. destruct (p.2); [|done]. apply ldiff_lor.
  apply land0. intros n Hn. rewrite N.pow2_bits_eqb. intros <-%N.eqb_eq. by rewrite bit63 in Hn.
Qed.
Lemma fits_enc q d p : (p.1 < 2 ^ 63)%N -> fits q d (enc p) = true <-> p = (N.lor q d, false) /\ N.land q d = 0%N.
Proof.
  intros H. unfold fits. rewrite covered_enc by done. destruct p as [c m]. unfold enc. cbn [fst snd] in *. destruct m; cbn [negb andb].
  { split; [done|]. by intros [? ?]. }
  rewrite andb_true_iff, !bool_decide_eq_true, sub_land. split.
  - intros [Hs ->]. split; [by rewrite lor_ldiff|apply ldiff_apart].
  - intros [E Hq]. injection E as ->. split; [apply sub_lor_r|by rewrite ldiff_lor].
Qed.
Fixpoint mfirst (c : N) (ps : list (N * bool)) : list (N * bool) :=
  match ps with
  | [] => []
  | p :: r => if decide (p = (c, false)) then (c, true) :: r else p :: mfirst c r
  end.
Lemma mark_first_enc q d ps : low ps -> N.land q d = 0%N -> mark_first q d (map enc ps) = map enc (mfirst (N.lor q d) ps).
Proof.
  intros H Hq. induction H as [|p ps Hp H IH]; [done|]. cbn [map mark_first mfirst].
  pose proof (fits_enc q d p Hp) as Hf. case_decide as E.
  - rewrite (proj2 Hf) by done. by rewrite E.
  - destruct (fits q d (enc p)); [|by rewrite IH]. by destruct (proj1 Hf eq_refl).
Qed.
Lemma mfirst_fst c ps : (mfirst c ps).*1 = ps.*1.
Proof. induction ps as [|p ps IH]; [done|]. cbn [mfirst]. case_decide as E; [by rewrite E|]. cbn. by rewrite <- IH. Qed.
Lemma mfirst_sel c ps : (c, false) ∈ ps -> sel true (mfirst c ps) ≡ₚ c :: sel true ps.
Proof.
  induction ps as [|p ps IH]; intros H; [by apply elem_of_nil in H|]. cbn [mfirst]. case_decide as E; [by rewrite E|].
  apply elem_of_cons in H as [?|H]; [done|]. unfold sel in *. rewrite !filter_cons. specialize (IH H). case_decide; cbn [fmap list_fmap]; [|done].
  change (p.1 :: sel true (mfirst c ps) ≡ₚ c :: p.1 :: sel true ps). unfold sel. rewrite IH. apply Permutation_swap.
Qed.
Lemma mfirst_none c ps : (c, false) ∉ ps -> mfirst c ps = ps.
Proof.
  induction ps as [|p ps IH]; intros H; [done|]. cbn. apply not_elem_of_cons in H as [H1 H2]. rewrite decide_False by done. by rewrite IH.
Qed.
Lemma mfirst_other c c' b ps : (c', b) ∈ ps -> c' <> c -> (c', b) ∈ mfirst c ps.
Proof.
  induction ps as [|p ps IH]; intros H Hc; [by apply elem_of_nil in H|]. cbn [mfirst].
  apply elem_of_cons in H as [<-|H].
  - rewrite decide_False by congruence. left.
  - case_decide; right; auto.
Qed.
Lemma mfirst_keep c c' ps : (c', true) ∈ ps -> (c', true) ∈ mfirst c ps.
Proof.
  induction ps as [|p ps IH]; intros H; [by apply elem_of_nil in H|]. cbn [mfirst].
  apply elem_of_cons in H as [<-|H].
  - rewrite decide_False by congruence. left.
  - case_decide; right; auto.
Qed.
Lemma mfirst_new c c' ps : (c', true) ∈ mfirst c ps -> (c', true) ∈ ps \/ c' = c.
Proof.
  induction ps as [|p ps IH]; intros H; [by apply elem_of_nil in H|]. cbn [mfirst] in H. case_decide.
  - apply elem_of_cons in H as [[= ->]|H]; [by right|]. left. by right.
  - apply elem_of_cons in H as [<-|H]; [left; left|]. apply IH in H as [?|?]; [|by right]. left. by right.
Qed.
Lemma mfirst_hit c b ps : (c, b) ∈ ps -> (c, true) ∈ mfirst c ps.
Proof.
  induction ps as [|p ps IH]; intros H; [by apply elem_of_nil in H|]. cbn [mfirst].
  apply elem_of_cons in H as [<-|H].
  - destruct b; [rewrite decide_False by congruence|rewrite decide_True by done]; left.
  - case_decide; [left|right; auto].
Qed.
Lemma sel_elem b ps c : c ∈ sel b ps <-> (c, b) ∈ ps.
Proof.
  unfold sel. rewrite elem_of_list_fmap. setoid_rewrite elem_of_list_filter. split.
  - intros ([c' b'] & -> & <- & ?). done.
  - intros ?. by exists (c, b).
Qed.
Lemma low_fst ps ps' : ps'.*1 = ps.*1 -> low ps -> low ps'.
Proof. intros E H. assert (Hf : Forall (fun c => (c < 2 ^ 63)%N) ps.*1) by (by apply Forall_fmap). rewrite <- E in Hf. by apply Forall_fmap in Hf. Qed.
Lemma sel_split ps : ps.*1 ≡ₚ sel true ps ++ sel false ps.
Proof.
  unfold sel. rewrite <- fmap_app. apply Permutation_map.
  induction ps as [|[c b] ps IH]; [done|]. rewrite !filter_cons. destruct b; cbn [snd]; repeat case_decide; try done.
  - cbn. by rewrite <- IH.
  - by rewrite <- Permutation_middle, <- IH.
Qed.

Definition mall (q d0 : N) (ds : sop) (ps : list (N * bool)) : list (N * bool) :=
  fold_left (fun g d => if decide (d = d0) then g else mfirst (N.lor q d) g) ds ps.
Lemma mall_fst q d0 ds ps : (mall q d0 ds ps).*1 = ps.*1.
Proof. revert ps. induction ds as [|d ds IH]; intros ps; [done|]. cbn. unfold mall in IH. rewrite IH. case_decide; [done|apply mfirst_fst]. Qed.
Lemma mall_enc q d0 ds ps : low ps -> (forall d, d ∈ ds -> N.land q d = 0%N) ->
  fold_left (fun g d => if decide (d = d0) then g else mark_first q d g) ds (map enc ps) = map enc (mall q d0 ds ps).
Proof.
  revert ps. induction ds as [|d ds IH]; intros ps Hl Hq; [done|]. cbn. case_decide.
  - rewrite IH; [done|done|]. intros d' ?. apply Hq. by right.
  - rewrite mark_first_enc by (try done; apply Hq; left). rewrite IH; [done| |].
    + eapply low_fst; [|done]. apply mfirst_fst.
    + intros d' ?. apply Hq. by right.
Qed.
Lemma mall_keep q d0 ds ps c : (c, true) ∈ ps -> (c, true) ∈ mall q d0 ds ps.
Proof. revert ps. induction ds as [|d ds IH]; intros ps H; [done|]. cbn. apply IH. case_decide; [done|by apply mfirst_keep]. Qed.
Lemma mall_new q d0 ds ps c : (c, true) ∈ mall q d0 ds ps -> (c, true) ∈ ps \/ exists d, d ∈ ds /\ c = N.lor q d.
Proof.
  revert ps. induction ds as [|d ds IH]; intros ps H; [by left|]. cbn in H. apply IH in H as [H|(d' & ? & ->)].
  - case_decide; [by left|]. apply mfirst_new in H as [H| ->]; [by left|]. right. exists d. split; [left|done].
  - right. exists d'. split; [by right|done].
Qed.
Lemma mall_hit q d0 ds ps d b : d ∈ ds -> d <> d0 -> (N.lor q d, b) ∈ ps -> (N.lor q d, true) ∈ mall q d0 ds ps.
Proof.
  revert ps b. induction ds as [|e ds IH]; intros ps b H Hd Hp; [by apply elem_of_nil in H|]. cbn. apply elem_of_cons in H as [<-|H].
  - rewrite decide_False by done. apply mall_keep. by eapply mfirst_hit.
  - case_decide; [by eapply IH|]. destruct (decide (N.lor q d = N.lor q e)) as [E|E].
    + apply mall_keep. rewrite <- E. by eapply mfirst_hit.
    + eapply IH; [done|done|]. by apply mfirst_other.
Qed.
Lemma mall_sel q d0 ds ps : NoDup ds -> (forall d, d ∈ ds -> N.land q d = 0%N) ->
  (forall d, d ∈ ds -> d <> d0 -> (N.lor q d, false) ∈ ps) ->
  sel true (mall q d0 ds ps) ≡ₚ map (N.lor q) (filter (fun d => d <> d0) ds) ++ sel true ps.
Proof.
  revert ps. induction ds as [|d ds IH]; intros ps Hn Hq Hp; [done|]. apply NoDup_cons in Hn as [Hd Hn]. cbn [mall fold_left].
  rewrite filter_cons. case_decide as E.
  - rewrite decide_False by (intros ?; done). apply IH; [done| |].
    + intros d' ?. apply Hq. by right.
    + intros d' ? ?. apply Hp; [by right|done].
  - rewrite decide_True by done. fold (mall q d0 ds (mfirst (N.lor q d) ps)). rewrite IH; [|done| |].
    + rewrite mfirst_sel by (apply Hp; [left|done]). cbn. by rewrite <- Permutation_middle.
    + intros d' ?. apply Hq. by right.
    + intros d' ? ?. apply mfirst_other; [apply Hp; [by right|done]|]. intros Ee.
      apply lor_cancel in Ee as ->; [done|apply Hq; by right|apply Hq; left].
Qed.
Lemma sel_insert ps i c : ps !! i = Some (c, false) -> sel true (<[i := (c, true)]> ps) ≡ₚ c :: sel true ps.
Proof.
  revert i. induction ps as [|p ps IH]; intros i H; [done|]. destruct i as [|i]; [by injection H as ->|].
  cbn in H. apply IH in H. cbn [insert list_insert]. fold (<[i := (c, true)]> ps). unfold sel in *. rewrite !filter_cons. case_decide; cbn [fmap list_fmap]; [|done].
  rewrite H. apply Permutation_swap.
Qed.
Lemma insert_fst (ps : list (N * bool)) i c b b' : ps !! i = Some (c, b) -> (<[i := (c, b')]> ps).*1 = ps.*1.
Proof. intros H. rewrite list_fmap_insert. apply list_insert_id. by rewrite list_lookup_fmap, H. Qed.
Lemma insert_other (ps : list (N * bool)) i c b b' c' e : ps !! i = Some (c, b) -> (c', e) ∈ ps -> c' <> c -> (c', e) ∈ <[i := (c, b')]> ps.
Proof.
  intros H Hp Hc. apply elem_of_list_lookup in Hp as [j Hj]. apply elem_of_list_lookup. exists j.
  rewrite list_lookup_insert_ne; [done|]. intros ->. congruence.
Qed.
Lemma insert_keep (ps : list (N * bool)) i c b c' : ps !! i = Some (c, b) -> (c', true) ∈ ps -> (c', true) ∈ <[i := (c, true)]> ps.
Proof.
  intros H Hp. apply elem_of_list_lookup in Hp as [j Hj]. apply elem_of_list_lookup. exists j.
  destruct (decide (i = j)) as [->|]; [|by rewrite list_lookup_insert_ne].
  rewrite list_lookup_insert by (by eapply lookup_lt_Some). congruence.
Qed.

(* one round of the division loop *)
Definition adds (ds : sop) (q : N) (ps ps' : list (N * bool)) : Prop :=
  (forall d, d ∈ ds -> N.land q d = 0%N) /\ ps'.*1 = ps.*1 /\
  (forall c, (c, true) ∈ ps' -> (c, true) ∈ ps \/ exists d, d ∈ ds /\ c = N.lor q d) /\
  (forall c, (c, true) ∈ ps -> (c, true) ∈ ps') /\
  (forall d, d ∈ ds -> (N.lor q d, true) ∈ ps') /\
  (NoDup ds -> sel true ps' ≡ₚ map (N.lor q) ds ++ sel true ps).
Lemma head_filter_some (P : N -> Prop) `{forall x, Decision (P x)} (l : sop) x : head (filter P l) = Some x -> x ∈ l /\ P x.
Proof.
  intros Hh. assert (Hx : x ∈ filter P l) by (destruct (filter P l); [done|]; injection Hh as ->; left).
  apply elem_of_list_filter in Hx. tauto.
Qed.
Lemma head_filter_none (P : N -> Prop) `{forall x, Decision (P x)} (l : sop) x : head (filter P l) = None -> x ∈ l -> ~ P x.
Proof.
  intros Hh Hl Hp. assert (Hx : x ∈ filter P l) by (by apply elem_of_list_filter).
  destruct (filter P l); [by apply elem_of_nil in Hx|done].
Qed.
Lemma nodup_filter_ne (d0 : N) ds : NoDup ds -> d0 ∈ ds -> ds ≡ₚ d0 :: filter (fun d => d <> d0) ds.
Proof.
  induction 1 as [|d ds Hd Hn IH]; intros H0; [by apply elem_of_nil in H0|]. rewrite filter_cons. case_decide as E.
  - apply elem_of_cons in H0 as [->|H0]; [done|]. rewrite IH at 1 by done. apply Permutation_swap.
  - assert (d = d0) as -> by (by destruct (decide (d = d0))). f_equiv.
    clear -Hd. induction ds as [|e ds IH]; [done|]. apply not_elem_of_cons in Hd as [H1 H2]. rewrite filter_cons_True by done. f_equiv. by apply IH.
Qed.
Lemma divide_step_spec ds ps Q i c m : low ps -> ps !! i = Some (c, m) ->
  exists ps' Q', divide_step ds (map enc ps, Q) i = Some (map enc ps', Q') /\
    ((ps' = ps /\ Q' = Q /\
      (m = true \/ (forall d, d ∈ ds -> ~ sub d c) \/
       exists d0 d, d0 ∈ ds /\ sub d0 c /\ head (filter (fun d => N.land c d = d) ds) = Some d0 /\ d ∈ ds /\ d <> d0 /\
         (N.land (N.ldiff c d0) d = 0%N -> (N.lor (N.ldiff c d0) d, false) ∉ ps))) \/
     exists q, Q' = Q ++ [q] /\ adds ds q ps ps').
Proof.
  intros Hl Hi. unfold divide_step.
  assert (Hm : map enc ps !! i = Some (enc (c, m))) by (change (map enc ps) with (enc <$> ps); by rewrite list_lookup_fmap, Hi).
  rewrite Hm. cbn [mbind option_bind].
  assert (Hc : (c < 2 ^ 63)%N) by (pose proof (Forall_lookup_1 _ _ _ _ Hl Hi); done).
  rewrite covered_enc by done. cbn [snd]. destruct m; [exists ps, Q; split; [done|]; left; naive_solver|].
  change (enc (c, false)) with c.
  destruct (head _) as [d0|] eqn:Eh.
  2:{ exists ps, Q. split; [done|]. left. split; [done|]. split; [done|]. right. left. intros d Hd.
      rewrite <- sub_land. by eapply (head_filter_none (fun d => N.land c d = d)). }
  pose proof (head_filter_some _ _ _ Eh) as [Hd0 Hs]. rewrite sub_land in Hs.
  destruct (forallb _ ds) eqn:Ef.
  - assert (Hall : forall d, d ∈ ds -> d = d0 \/ ((N.lor (N.ldiff c d0) d, false) ∈ ps /\ N.land (N.ldiff c d0) d = 0%N)).
    { intros d Hd. rewrite forallb_forall in Ef. specialize (Ef d (proj1 (elem_of_list_In _ _) Hd)).
      apply orb_true_iff in Ef as [Ef|Ef]; [left; by apply bool_decide_eq_true in Ef|]. right.
      apply existsb_exists in Ef as (x & Hx & Hf). apply in_map_iff in Hx as (p & <- & Hp). apply elem_of_list_In in Hp.
      apply fits_enc in Hf as [-> ?]; [done|]. by eapply (Forall_forall (fun p => (p.1 < 2 ^ 63)%N)). }
    set (q := N.ldiff c d0) in *.
    assert (Hcq : c = N.lor q d0) by (symmetry; by apply lor_ldiff).
    assert (Hap : forall d, d ∈ ds -> N.land q d = 0%N).
    { intros d Hd. destruct (Hall d Hd) as [->|[_ ?]]; [apply ldiff_apart|done]. }
    exists (mall q d0 ds (<[i := (c, true)]> ps)), (Q ++ [q]). split.
    { f_equal. f_equal. rewrite <- mall_enc; [|eapply low_fst; [|done]; by eapply insert_fst|done].
      f_equal. change (map enc ?x) with (enc <$> x). rewrite list_fmap_insert. done. }
    right. exists q. split; [done|]. split; [done|]. split; [|split; [|split; [|split]]].
    + rewrite mall_fst. by eapply insert_fst.
    + intros c' Hc'. apply mall_new in Hc' as [Hc'|?]; [|by right].
      apply elem_of_list_lookup in Hc' as [j Hj]. destruct (decide (i = j)) as [->|].
      * rewrite list_lookup_insert in Hj by (by eapply lookup_lt_Some). injection Hj as <-. right. by exists d0.
      * rewrite list_lookup_insert_ne in Hj by done. left. by eapply elem_of_list_lookup_2.
    + intros c' Hc'. apply mall_keep. by eapply insert_keep.
    + intros d Hd. destruct (decide (d = d0)) as [->|Hne].
      * apply mall_keep. apply elem_of_list_lookup. exists i. rewrite <- Hcq. apply list_lookup_insert. by eapply lookup_lt_Some.
      * destruct (Hall d Hd) as [?|[Hp _]]; [done|]. eapply mall_hit; [done|done|]. eapply insert_other; [done|done|].
        rewrite Hcq. intros E. apply lor_cancel in E; auto.
    + intros Hn. rewrite mall_sel; [|done|done|].
      * rewrite sel_insert by done. rewrite <- Permutation_middle. rewrite (nodup_filter_ne d0 ds) at 2 by done. cbn. by rewrite <- Hcq.
      * intros d Hd Hne. destruct (Hall d Hd) as [?|[Hp _]]; [done|]. eapply insert_other; [done|done|].
        rewrite Hcq. intros E. apply lor_cancel in E; auto.
  - exists ps, Q. split; [done|]. left. split; [done|]. split; [done|]. right. right.
    assert (exists d, d ∈ ds /\ bool_decide (d = d0) || existsb (fits (N.ldiff c d0) d) (map enc ps) = false) as (d & Hd & Hf).
    { clear -Ef. induction ds as [|d ds IH]; [done|]. cbn in Ef. apply andb_false_iff in Ef as [E|E].
      - exists d. split; [left|done]. - destruct (IH E) as (d' & ? & ?). exists d'. split; [by right|done]. }
    apply orb_false_iff in Hf as [Hne Hf]. apply bool_decide_eq_false in Hne.
    exists d0, d. split; [done|]. split; [done|]. split; [done|]. split; [done|]. split; [done|].
    intros Hq Hp. assert (existsb (fits (N.ldiff c d0) d) (map enc ps) = true) as Ht; [|congruence].
    apply existsb_exists. exists (enc (N.lor (N.ldiff c d0) d, false)). split; [apply in_map; by apply elem_of_list_In|].
    apply fits_enc; [by eapply (Forall_forall (fun p => (p.1 < 2 ^ 63)%N))|done].
Qed.

Definition dinv (ds Q : sop) (ps : list (N * bool)) : Prop :=
  apart Q ds /\ (forall q d, q ∈ Q -> d ∈ ds -> (N.lor q d, true) ∈ ps) /\
  (forall c, (c, true) ∈ ps -> exists q d, q ∈ Q /\ d ∈ ds /\ c = N.lor q d) /\
  (NoDup ds -> sel true ps ≡ₚ product ds Q).
(* C times the divisor is part of f, and no other divisor product is contained in one of these *)
Definition full (ds f : sop) (C : N) : Prop :=
  (forall d, d ∈ ds -> N.land C d = 0%N) /\ (forall d d', d ∈ ds -> d' ∈ ds -> sub d' (N.lor C d) -> d' = d) /\
  (forall d, d ∈ ds -> N.lor C d ∈ f).
Lemma product_app ds Q q : product ds (Q ++ [q]) = product ds Q ++ map (N.lor q) ds.
Proof. unfold product. rewrite flat_map_app. cbn. by rewrite app_nil_r. Qed.
Lemma full_marked ds f C Q ps d : full ds f C -> dinv ds Q ps -> d ∈ ds -> (N.lor C d, true) ∈ ps -> C ∈ Q.
Proof.
  intros (Ha & Hu & _) (Hap & _ & Hm & _) Hd Hp. destruct (Hm _ Hp) as (q & d' & Hq & Hd' & E).
  assert (d' = d) as -> by (apply Hu; [done|done|]; rewrite E; apply sub_lor_r).
  assert (C = q) as ->; [|done]. rewrite !(N.lor_comm _ d) in E.
  apply lor_cancel in E; [done|rewrite N.land_comm; auto|rewrite N.land_comm; auto].
Qed.
Lemma divide_step_inv ds ps Q i : low ps -> dinv ds Q ps -> i < length ps ->
  exists ps' Q', divide_step ds (map enc ps, Q) i = Some (map enc ps', Q') /\ ps'.*1 = ps.*1 /\ dinv ds Q' ps' /\
    (forall q, q ∈ Q -> q ∈ Q') /\
    (forall C d, full ds ps.*1 C -> d ∈ ds -> ps.*1 !! i = Some (N.lor C d) -> C ∈ Q').
Proof.
  intros Hl Hi Hlt. destruct (lookup_lt_is_Some_2 ps i Hlt) as [[c m] Hc].
  destruct (divide_step_spec ds ps Q i c m Hl Hc) as (ps' & Q' & E & H). exists ps', Q'. split; [done|].
  destruct H as [(-> & -> & H)|(q & -> & Ha)].
  - split; [done|]. split; [done|]. split; [done|]. intros C d Hf Hd Hci. rewrite list_lookup_fmap, Hc in Hci. injection Hci as ->.
    destruct m; [by eapply full_marked; eauto using elem_of_list_lookup_2|]. destruct H as [?|[H|(d0 & d1 & Hd0 & Hs & _ & Hd1 & Hne & H)]]; [done| |].
    { exfalso. by apply (H d Hd), sub_lor_r. }
    pose proof Hf as (Hap & Hu & Hin). assert (d0 = d) as -> by (by apply Hu).
    rewrite ldiff_lor in H by auto. specialize (Hin d1 Hd1). apply elem_of_list_fmap in Hin as ([c' m'] & Ec & Hin). cbn in Ec. subst c'.
    destruct m'; [exact (full_marked _ _ _ _ _ _ Hf Hi Hd1 Hin)|]. by destruct (H (Hap _ Hd1)).
  - destruct Ha as (Ha & Hfst & Hnew & Hkeep & Hhit & Hperm). split; [done|]. destruct Hi as (I1 & I2 & I3 & I4).
    assert (Hinv' : dinv ds (Q ++ [q]) ps').
    { split; [|split; [|split]].
      - intros q' d Hq Hd. apply elem_of_app in Hq as [Hq|Hq%elem_of_list_singleton]; [by auto|subst q'; by auto].
      - intros q' d Hq Hd. apply elem_of_app in Hq as [Hq|Hq%elem_of_list_singleton]; [by auto|subst q'; by auto].
      - intros c' Hc'. destruct (Hnew _ Hc') as [H|(d & Hd & ->)].
        + destruct (I3 _ H) as (q' & d & ? & ? & ->). exists q', d. split; [apply elem_of_app; by left|done].
        + exists q, d. split; [|done]. apply elem_of_app. right. left.
      - intros Hn. rewrite (Hperm Hn), product_app, (I4 Hn). apply Permutation_app_comm. }
    split; [done|]. split; [intros q' ?; apply elem_of_app; by left|].
    intros C d Hf Hd Hci. rewrite list_lookup_fmap, Hc in Hci. injection Hci as ->.
    (* the entry is marked now *)
    destruct (decide ((N.lor C d, true) ∈ ps')) as [Hin|Hin].
    { eapply (full_marked ds ps.*1 C _ ps'); eauto. }
    exfalso. apply Hin. clear Hin.
    unfold divide_step in E. assert (Hm : map enc ps !! i = Some (enc (N.lor C d, m))) by (change (map enc ps) with (enc <$> ps); by rewrite list_lookup_fmap, Hc).
    rewrite Hm in E. cbn [mbind option_bind] in E.
    assert (Hcl : (N.lor C d < 2 ^ 63)%N) by (pose proof (Forall_lookup_1 _ _ _ _ Hl Hc); done).
    rewrite covered_enc in E by done. cbn [snd] in E. destruct m; [apply Hkeep; by eapply elem_of_list_lookup_2|].
    change (enc (N.lor C d, false)) with (N.lor C d) in E.
    assert (Hq : Q ++ [q] <> Q) by (intros E'; apply (f_equal length) in E'; rewrite app_length in E'; cbn in E'; lia).
    destruct (head _) as [d0|] eqn:Eh; [|injection E; intros; congruence].
    pose proof (head_filter_some _ _ _ Eh) as [Hd0 Hs]. rewrite sub_land in Hs.
    destruct Hf as (Hap & Hu & Hin). assert (d0 = d) as -> by (by apply Hu).
    destruct (forallb _ ds); injection E; [|intros; congruence]. intros Eq _. apply app_inj_tail in Eq as [_ <-].
    rewrite ldiff_lor in Hhit by auto. auto.
Qed.
Lemma divide_loop_inv ds is ps Q : low ps -> dinv ds Q ps -> Forall (fun i => i < length ps) is ->
  exists ps' Q', divide_loop ds is (map enc ps, Q) = Some (map enc ps', Q') /\ ps'.*1 = ps.*1 /\ dinv ds Q' ps' /\
    (forall q, q ∈ Q -> q ∈ Q') /\
    (forall C d i, full ds ps.*1 C -> d ∈ ds -> i ∈ is -> ps.*1 !! i = Some (N.lor C d) -> C ∈ Q').
Proof.
  revert ps Q. induction is as [|i is IH]; intros ps Q Hl Hi Hlt.
  - exists ps, Q. split; [done|]. split; [done|]. split; [done|]. split; [done|]. intros ? ? ? _ _ H. by apply elem_of_nil in H.
  - apply Forall_cons in Hlt as [Hlt Hr]. destruct (divide_step_inv ds ps Q i Hl Hi Hlt) as (ps1 & Q1 & E & Hf & Hi1 & Hq & Hc).
    destruct (IH ps1 Q1) as (ps' & Q' & E' & Hf' & Hi' & Hq' & Hc').
    + by eapply low_fst.
    + done.
    + assert (Hlen : length ps1 = length ps) by (rewrite <- (fmap_length fst ps1), Hf; apply fmap_length). by rewrite Hlen.
    + exists ps', Q'. split; [cbn [divide_loop]; rewrite E; done|]. split; [congruence|]. split; [done|]. split; [auto|].
      intros C d j Hfu Hd Hj Hl'. apply elem_of_cons in Hj as [->|Hj]; [eauto|]. eapply Hc'; rewrite ?Hf; eauto.
Qed.

(* what a division returns *)
Definition division (f ds Q R : sop) : Prop :=
  exists ps, ps.*1 = f /\ R = sel false ps /\ dinv ds Q ps /\ forall C, ds <> [] -> full ds f C -> C ∈ Q.
Lemma map_fst_eq {A B} (l : list (A * B)) : map fst l = l.*1. Proof. done. Qed.
Lemma sop_divide_spec f ds : unmarked f -> exists Q R, sop_divide f ds = Some (f, Q, R) /\ division f ds Q R.
Proof.
  intros Hu. assert ((exists d, ds = [d]) \/ ~ exists d, ds = [d]) as [[d ->]|Hne] by (destruct ds as [|d [|]]; [right; by intros [? ?]|left; by exists d|right; by intros [? ?]]).
  - cbn [sop_divide]. unfold sop_divide_by_cube. eexists _, _. split; [done|].
    exists (map (fun c => (c, bool_decide (N.land c d = d))) f).
    assert (Hsel : forall b, sel b (map (fun c => (c, bool_decide (N.land c d = d))) f) = filter (fun c => bool_decide (N.land c d = d) = b) f).
    { intros b. clear. unfold sel. induction f as [|c f IH]; [done|]. cbn [map]. rewrite !filter_cons. cbn [snd]. case_decide; cbn [fmap list_fmap fst]; by rewrite IH. }
    split; [rewrite <- map_fst_eq, map_map; apply map_id|]. split.
    { rewrite Hsel. apply list_filter_iff. intros c. by rewrite bool_decide_eq_false. }
    assert (Hmem : forall c, (c, true) ∈ map (fun c => (c, bool_decide (N.land c d = d))) f <-> c ∈ f /\ sub d c).
    { intros c. rewrite <- sel_elem, Hsel, elem_of_list_filter, bool_decide_eq_true, sub_land. tauto. }
    assert (Hq : forall q, q ∈ map (fun c => N.ldiff c d) (filter (fun c => N.land c d = d) f) <-> exists c, c ∈ f /\ sub d c /\ q = N.ldiff c d).
    { intros q. rewrite elem_of_list_In, in_map_iff. setoid_rewrite <- elem_of_list_In. setoid_rewrite elem_of_list_filter. setoid_rewrite sub_land. naive_solver. }
    split; [split; [|split; [|split]]|].
    + intros q d' Hq' Hd%elem_of_list_singleton. subst d'. apply Hq in Hq' as (c & _ & _ & ->). apply ldiff_apart.
    + intros q d' Hq' Hd%elem_of_list_singleton. subst d'. apply Hq in Hq' as (c & ? & ? & ->). apply Hmem. by rewrite lor_ldiff.
    + intros c Hc. apply Hmem in Hc as [Hc Hs]. exists (N.ldiff c d), d. split; [apply Hq; eauto|]. split; [left|]. by rewrite lor_ldiff.
    + intros _. rewrite Hsel. clear. induction f as [|c f IH]; [done|]. destruct (decide (N.land c d = d)) as [E|E].
      * rewrite !filter_cons_True by (by rewrite ?bool_decide_eq_true). unfold product in *. cbn [map flat_map app].
        rewrite lor_ldiff by (by apply sub_land). by rewrite IH.
      * rewrite !filter_cons_False by (by rewrite ?bool_decide_eq_true). apply IH.
    + intros C _ (Ha & _ & Hin). apply Hq. exists (N.lor C d). split; [apply Hin; left|]. split; [apply sub_lor_r|].
      by rewrite ldiff_lor by (apply Ha; left).
  - set (ps0 := map (fun c => (c, false)) f).
    assert (E0 : map enc ps0 = f) by (unfold ps0; rewrite map_map; apply map_id).
    assert (F0 : ps0.*1 = f) by (unfold ps0; rewrite <- map_fst_eq, map_map; apply map_id).
    assert (L0 : length ps0 = length f) by (apply map_length).
    assert (N0 : forall c, (c, true) ∉ ps0).
    { intros c H. apply elem_of_list_In, in_map_iff in H as (? & ? & _). congruence. }
    destruct (divide_loop_inv ds (seq 0 (length f)) ps0 []) as (ps & Q & E & Hf & Hi & _ & Hc).
    + unfold low, ps0. apply Forall_forall. intros p Hp. apply elem_of_list_In, in_map_iff in Hp as (c & <- & Hc). cbn.
      eapply (proj1 (Forall_forall _ _) Hu). by apply elem_of_list_In.
    + split; [|split; [|split]].
      * intros q d H. by apply elem_of_nil in H.
      * intros q d H. by apply elem_of_nil in H.
      * intros c H. by apply N0 in H.
      * intros _. cbn. assert (Hs : sel true ps0 = []); [|by rewrite Hs].
        unfold sel, ps0. clear. induction f as [|c f IH]; [done|]. cbn [map]. by rewrite filter_cons_False.
    + apply Forall_forall. intros i Hi. apply elem_of_seq in Hi. lia.
    + rewrite E0 in E. rewrite F0 in Hf. assert (Hl : low ps).
      { eapply (low_fst ps0); [by rewrite Hf|]. unfold low, ps0. apply Forall_forall. intros p Hp. apply elem_of_list_In, in_map_iff in Hp as (c & <- & Hc'). cbn.
        eapply (proj1 (Forall_forall _ _) Hu). by apply elem_of_list_In. }
      exists Q, (sel false ps). split.
      * assert (Ed : sop_divide f ds = ('(f', q) ← divide_loop ds (seq 0 (length f)) (f, []);
          Some (map (fun c => if covered63 c then N.ldiff c (2 ^ 63) else c) f', q, filter (fun c => covered63 c = false) f'))).
        { destruct ds as [|d [|]]; try done. exfalso. apply Hne. eauto. }
        rewrite Ed, E. cbn [mbind option_bind]. f_equal. f_equal; [f_equal|].
        -- rewrite map_map, <- Hf, <- map_fst_eq. apply map_ext_in. intros p Hp. apply unmark_enc.
           eapply (proj1 (Forall_forall _ _) Hl). by apply elem_of_list_In.
        -- unfold sel. clear -Hl. induction Hl as [|p ps Hp Hl IH]; [done|]. cbn [map]. rewrite !filter_cons, IH.
           rewrite covered_enc by done. case_decide as Ep; [|done]. cbn [fmap list_fmap]. f_equal. unfold enc. by rewrite Ep.
      * exists ps. split; [done|]. split; [done|]. split; [done|]. intros C Hds Hfu.
        destruct ds as [|d ds]; [done|]. pose proof Hfu as (_ & _ & Hin). specialize (Hin d (elem_of_list_here _ _)).
        apply elem_of_list_lookup in Hin as [i Hli]. eapply (Hc C d i); rewrite ?F0; [done|left| |done].
        apply elem_of_seq. apply lookup_lt_Some in Hli. lia.
Qed.

(* consequences *)
Lemma division_val x f ds Q R : division f ds Q R -> sop_val x f = sop_val x ds && sop_val x Q || sop_val x R.
Proof.
  intros (ps & <- & -> & (_ & H1 & H2 & _) & _). apply bool_iff. rewrite orb_true_iff, andb_true_iff, !sop_val_true. split.
  - intros (c & Hc & Hv). apply elem_of_list_fmap in Hc as ([c' [|]] & -> & Hc); cbn in *.
    + left. destruct (H2 _ Hc) as (q & d & Hq & Hd & ->). rewrite prod_val_lor, andb_true_iff in Hv. destruct Hv. split; eauto.
    + right. exists c'. split; [by apply sel_elem|done].
  - intros [[(d & Hd & Hv) (q & Hq & Hv')]|(c & Hc & Hv)].
    + exists (N.lor q d). split; [|by rewrite prod_val_lor, Hv, Hv']. apply elem_of_list_fmap. exists (N.lor q d, true). auto.
    + exists c. split; [|done]. apply sel_elem in Hc. apply elem_of_list_fmap. by exists (c, false).
Qed.
Lemma division_perm f ds Q R : division f ds Q R -> NoDup ds -> f ≡ₚ product ds Q ++ R.
Proof. intros (ps & <- & -> & (_ & _ & _ & Hp) & _) Hn. rewrite <- (Hp Hn). apply sel_split. Qed.
Lemma division_apart f ds Q R : division f ds Q R -> apart Q ds.
Proof. by intros (ps & _ & _ & (H & _) & _). Qed.
Lemma division_in f ds Q R q d : division f ds Q R -> q ∈ Q -> d ∈ ds -> N.lor q d ∈ f.
Proof. intros (ps & <- & _ & (_ & H & _) & _) Hq Hd. apply elem_of_list_fmap. exists (N.lor q d, true). auto. Qed.
Lemma division_rem f ds Q R : division f ds Q R -> R `sublist_of` f.
Proof.
  intros (ps & <- & -> & _ & _). unfold sel. clear. induction ps as [|p ps IH]; [done|]. rewrite filter_cons. case_decide; cbn.
  - by apply sublist_skip. - by apply sublist_cons.
Qed.
Lemma division_full f ds Q R C : division f ds Q R -> ds <> [] -> full ds f C -> C ∈ Q.
Proof. intros (ps & _ & _ & _ & H). auto. Qed.
