(* Lemmas lifting the constructor specifications to call histories. *)
From Verif Require Import Base Aig AigSem AigHash AigProofs.

(* What every call guarantees about the old state. *)
Record grows (s s' : aig) : Prop := {
  gr_ks : exists t, ks s' = ks s ++ t;
  gr_ins : exists t, ins s' = ins s ++ t;
  gr_outs : exists t, outs s' = outs s ++ t
}.

Lemma grows_refl s : grows s s.
Proof. split; exists []; by rewrite app_nil_r. Qed.
Lemma grows_trans s1 s2 s3 : grows s1 s2 -> grows s2 s3 -> grows s1 s3.
Proof.
  intros [[t1 E1] [u1 F1] [w1 G1]] [[t2 E2] [u2 F2] [w2 G2]].
  split; [exists (t1 ++ t2)|exists (u1 ++ u2)|exists (w1 ++ w2)]; rewrite app_assoc; congruence.
Qed.
Lemma ext_grows s s' : ext s s' -> grows s s'.
Proof.
  intros [Ht Hi Ho _ _ _]. split; [done|exists []|exists []]; by rewrite app_nil_r.
Qed.
Lemma grows_valid s s' f : grows s s' -> valid s f -> valid s' f.
Proof. intros [[t E] _ _]. unfold valid, size. rewrite E, app_length. lia. Qed.
Lemma grows_ev s s' env n : grows s s' -> n < size s -> ev s' env n = ev s env n.
Proof. intros [[t E] _ _] Hn. unfold ev. rewrite E. by apply evl_nth_app. Qed.

Definition op_post (o : op) (s : aig) (r : signal) (s' : aig) : Prop :=
  match o with
  | OpPi => r = Sig (size s) false /\ ins s' = ins s ++ [size s] /\ outs s' = outs s /\
            npi s' = S (npi s) /\ npo s' = npo s
  | OpRo => r = Sig (size s) false /\ ins s' = ins s ++ [size s] /\ outs s' = outs s /\
            npi s' = npi s /\ npo s' = npo s
  | OpPo f => r = f /\ ks s' = ks s /\ ins s' = ins s /\ outs s' = outs s ++ [f] /\
              npi s' = npi s /\ npo s' = S (npo s)
  | OpRi f _ => r = f /\ ks s' = ks s /\ ins s' = ins s /\ outs s' = outs s ++ [f] /\
              npi s' = npi s /\ npo s' = npo s
  | _ => ext s s' /\ forall env, op_value o (sval (ev s env)) = Some (sval (ev s' env) r)
  end.

Lemma foldr_forallb (v : signal -> bool) l : foldr andb true (map v l) = forallb v l.
Proof. induction l; cbn; congruence. Qed.
Lemma foldr_existsb (v : signal -> bool) l : foldr orb false (map v l) = existsb v l.
Proof. induction l; cbn; congruence. Qed.
Lemma foldr_xor (v : signal -> bool) l :
  foldr xorb false (map v l) = Nat.odd (length (filter (fun f => v f = true) l)).
Proof.
  induction l as [|f l IH]; cbn [map foldr]; [done|]. rewrite IH. rewrite filter_cons.
  destruct (v f); [rewrite decide_True by done|rewrite decide_False by done].
  - cbn [length]. rewrite Nat.odd_succ, <- Nat.negb_odd.
    by destruct (Nat.odd (length (filter (λ f0 : signal, v f0 = true) l))).
  - by destruct (Nat.odd (length (filter (λ f0 : signal, v f0 = true) l))).
Qed.

Lemma step_wp o s : wf s -> Forall (valid s) (operands o) ->
  wp (step o) s (fun r s' => wf s' /\ grows s s' /\ valid s' r /\ op_post o s r s').
Proof.
  intros Hw Hops.
  assert (Hb : forall m val, wp m s (builds s val) ->
     (forall env, op_value o (sval (ev s env)) = Some (val env)) ->
     wp m s (fun r s' => wf s' /\ grows s s' /\ valid s' r /\
       (ext s s' /\ forall env, op_value o (sval (ev s env)) = Some (sval (ev s' env) r)))).
  { intros m val Hm Hv. eapply wp_mono; [exact Hm|]. intros r s' (Hw' & He & Hvr & Hval).
    split; [done|]. split; [by apply ext_grows|]. split; [done|]. split; [done|].
    intros env. by rewrite Hv, Hval. }
  destruct o; cbn [step op_post operands] in *;
    repeat match goal with H : Forall _ (_ :: _) |- _ => apply Forall_cons in H as [? H] end.
  - eapply wp_mono; [by apply create_pi_wp|]. intros f s' (Hw' & -> & Hk & Hi & Ho & Hp & Hq & _).
    split; [done|]. split; [|split; [unfold valid, size; cbn; rewrite Hk, app_length; cbn; lia|done]].
    split; eauto. exists []. by rewrite app_nil_r.
  - eapply wp_mono; [by apply create_ro_wp|]. intros f s' (Hw' & -> & Hk & Hi & Ho & Hp & Hq & _).
    split; [done|]. split; [|split; [unfold valid, size; cbn; rewrite Hk, app_length; cbn; lia|done]].
    split; eauto. exists []. by rewrite app_nil_r.
  - apply wp_bnd. eapply wp_mono; [by apply create_po_wp|].
    intros n s' (Hw' & Hk & Hi & Ho & Hp & Hq & _). apply wp_ret.
    split; [done|]. split; [|split; [unfold valid, size; by rewrite Hk|done]].
    split; [exists []|exists []|eauto]; by rewrite app_nil_r.
  - apply wp_bnd. eapply wp_mono; [by apply create_ri_wp|].
    intros n s' (Hw' & Hk & Hi & Ho & Hp & Hq & _). apply wp_ret.
    split; [done|]. split; [|split; [unfold valid, size; by rewrite Hk|done]].
    split; [exists []|exists []|eauto]; by rewrite app_nil_r.
  - eapply Hb; [by apply create_and_wp|done].
  - eapply Hb; [by apply create_nand_wp|done].
  - eapply Hb; [by apply create_or_wp|done].
  - eapply Hb; [by apply create_nor_wp|done].
  - eapply Hb; [by apply create_lt_wp|done].
  - eapply Hb; [by apply create_le_wp|done].
  - eapply Hb; [by apply create_xor_wp|done].
  - eapply Hb; [by apply create_xnor_wp|]. intros env. cbn. f_equal.
    by destruct (sval (ev s env) a), (sval (ev s env) b).
  - eapply Hb; [by apply create_ite_wp|done].
  - eapply Hb; [by apply create_maj_wp|]. intros env. cbn. f_equal. unfold maj3.
    by destruct (sval (ev s env) a), (sval (ev s env) b), (sval (ev s env) c).
  - eapply Hb; [by apply create_xor3_wp|]. intros env. cbn. f_equal.
    by destruct (sval (ev s env) a), (sval (ev s env) b), (sval (ev s env) c).
  - eapply Hb; [by apply create_nary_and_wp|]. intros env. cbn. by rewrite foldr_forallb.
  - eapply Hb; [by apply create_nary_or_wp|]. intros env. cbn. by rewrite foldr_existsb.
  - eapply Hb; [by apply create_nary_xor_wp|]. intros env. cbn. by rewrite foldr_xor.
Qed.

Lemma step_inv o s r s' : wf s -> Forall (valid s) (operands o) -> step o s = Some (r, s') ->
  wf s' /\ grows s s' /\ valid s' r /\ op_post o s r s'.
Proof. intros Hw Hv Hs. pose proof (step_wp o s Hw Hv) as H. unfold wp in H. by rewrite Hs in H. Qed.

Lemma reachable_wf s : reachable s -> wf s.
Proof. induction 1; [by apply aig_init_wf|]. by edestruct step_inv. Qed.

Lemma hist_reachable h s : hist h s -> reachable s.
Proof. induction 1; econstructor; eauto. Qed.

Lemma reachable_hist s : reachable s -> exists h, hist h s.
Proof. induction 1 as [|s o r s' _ [h Hh]]; eexists; econstructor; eauto. Qed.

Lemma later_grows s s' : wf s -> later s s' -> wf s' /\ grows s s'.
Proof.
  intros Hw. induction 1 as [|s' o r s'' _ [Hw' Hg] Hv Hs]; [split; [done|apply grows_refl]|].
  edestruct step_inv as (? & ? & _); [exact Hw'|done|done|]. eauto using grows_trans.
Qed.

(* --- C01 --- *)
Lemma constructors_correct s o : reachable s -> Forall (valid s) (operands o) ->
  exists r s', step o s = Some (r, s') /\ valid s' r /\
  forall env v v' b, valuation s env v -> valuation s' env v' ->
    op_value o (sval v) = Some b -> sval v' r = b.
Proof.
  intros Hr Hv. pose proof (reachable_wf s Hr) as Hw.
  destruct (wp_elim _ _ _ (step_wp o s Hw Hv)) as (r & s' & Hs & Hw' & Hg & Hvr & Hpost).
  exists r, s'. split; [done|]. split; [done|]. intros env v v' b Hval Hval' Hop.
  rewrite (valuation_sval s' env v' r Hw' Hval' Hvr).
  assert (Heq : op_value o (sval v) = op_value o (sval (ev s env))).
  { assert (Hsv : forall f, f ∈ operands o -> sval v f = sval (ev s env) f).
    { intros f Hf. apply valuation_sval; [done|done|]. rewrite Forall_forall in Hv. by apply Hv. }
    destruct o; cbn [operands op_value] in *; try done;
      rewrite ?Hsv by (repeat first [apply elem_of_list_here | apply elem_of_list_further]); try done.
    - f_equal. clear -Hsv. induction l as [|f l IH]; cbn; [done|]. rewrite Hsv by constructor.
      rewrite IH; [done|]. intros g Hg. apply Hsv. by constructor.
    - f_equal. clear -Hsv. induction l as [|f l IH]; cbn; [done|]. rewrite Hsv by constructor.
      rewrite IH; [done|]. intros g Hg. apply Hsv. by constructor.
    - do 3 f_equal. clear -Hsv. induction l as [|f l IH]; [done|]. rewrite !filter_cons.
      rewrite Hsv by constructor. rewrite IH; [done|]. intros g Hg. apply Hsv. by constructor. }
  rewrite Heq in Hop. destruct o; cbn [op_value op_post] in *; try done;
    destruct Hpost as [_ Hpost]; specialize (Hpost env); congruence.
Qed.

Lemma valuations_exist s env : reachable s ->
  exists v, valuation s env v /\ forall v', valuation s env v' -> forall n, n < size s -> v' n = v n.
Proof.
  intros Hr%reachable_wf. exists (ev s env). split; [by apply ev_valuation|].
  intros v' Hv' n Hn. by apply valuation_unique.
Qed.

(* --- C02 --- *)
Lemma order_sym a b : sidx a <> sidx b -> order a b = order b a.
Proof. unfold order. intros. repeat case_decide; try lia; done. Qed.

(* create_and only depends on the operands and on the set of keys. *)
Lemma create_and_again s a b f s1 s2 :
  wf s -> valid s a -> valid s b -> create_and a b s = Some (f, s1) ->
  wf s2 -> grows s1 s2 -> create_and a b s2 = Some (f, s2).
Proof.
  intros Hw Ha Hb Hc Hw2 Hg. revert Hc. unfold create_and.
  assert (Hord : valid s (order a b).2 /\ sidx (order a b).1 <= sidx (order a b).2).
  { destruct (order_cases a b) as [[-> ?]|[-> ?]]; cbn; split; done || lia. }
  destruct (order a b) as [x y]. cbn in Hord. destruct Hord as [Hy Hle].
  case_decide as H1. { intros [= <- <-]. done. }
  case_decide as H2. { intros [= <- <-]. done. }
  assert (Hxy : x <> y) by (intros ->; done).
  destruct (hash_find_wf s x y Hw Hxy) as (r & Hr & Hrc). rewrite Hr. cbn [mbind option_bind].
  assert (Hfin : forall n, n <> 0 -> ks s1 !! n = Some (x, y) -> f = Sig n false ->
    (found ← hash_find (x, y) s2;
      (if decide (found = 0) then new_and x y s2 else Some (Sig found false, s2))) = Some (f, s2)).
  { intros n Hn0 Hn ->. destruct Hg as [[t Et] _ _].
    assert (Hn2 : ks s2 !! n = Some (x, y)) by (rewrite Et; by apply lookup_app_l_Some).
    destruct (hash_find_wf s2 x y Hw2 Hxy) as (r2 & Hr2 & [[Hr20 Hk2]|[-> Hno]]); [|by destruct (Hno n)].
    rewrite Hr2. cbn. rewrite decide_False by done.
    by rewrite (wf_uniq s2 Hw2 _ _ _ _ Hn2 Hk2 Hxy). }
  destruct Hrc as [[Hr0 Hk]|[-> Hno]].
  - rewrite decide_False by done. intros [= <- <-]. by apply (Hfin r).
  - rewrite decide_True by done. intros Hnew.
    pose proof (new_and_wp s x y Hw Hy ltac:(lia) ltac:(lia) Hno) as Hn. unfold wp in Hn.
    rewrite Hnew in Hn. destruct Hn as (_ & _ & -> & Hks).
    apply (Hfin (size s)); [pose proof (wf_size s Hw); lia| |done].
    rewrite Hks. apply lookup_snoc_eq.
Qed.

Lemma create_and_comm s a b : create_and a b s = create_and b a s.
Proof.
  unfold create_and. destruct (decide (sidx a = sidx b)) as [E|Hne].
  - destruct a as [x p], b as [y q]. cbn in E. subst y. unfold order. cbn.
    rewrite !decide_False by lia. cbn. rewrite !decide_True by done.
    destruct p, q; repeat case_decide; done.
  - by rewrite (order_sym a b).
Qed.

Lemma hashing_canonical s a b f s1 s2 :
  reachable s -> valid s a -> valid s b -> create_and a b s = Some (f, s1) -> later s1 s2 ->
  create_and a b s2 = Some (f, s2) /\ create_and b a s2 = Some (f, s2).
Proof.
  intros Hr Ha Hb Hc Hl. pose proof (reachable_wf _ Hr) as Hw.
  assert (Hw1 : wf s1).
  { pose proof (create_and_wp s a b Hw Ha Hb) as H. unfold wp in H. rewrite Hc in H. by destruct H. }
  destruct (later_grows _ _ Hw1 Hl) as [Hw2 Hg].
  rewrite (create_and_comm s2 b a). split; exact (create_and_again s a b f s1 s2 Hw Ha Hb Hc Hw2 Hg).
Qed.

Lemma no_duplicate_gates s n m a b :
  reachable s -> ks s !! n = Some (a, b) -> ks s !! m = Some (a, b) -> a <> b -> n = m.
Proof. intros Hr%reachable_wf. by apply wf_uniq. Qed.

(* --- C03 --- *)
Lemma creation_frame s o r s' :
  reachable s -> Forall (valid s) (operands o) -> step o s = Some (r, s') ->
  (exists t, ks s' = ks s ++ t) /\ (exists t, ins s' = ins s ++ t) /\ (exists t, outs s' = outs s ++ t) /\
  (forall f env v v', valid s f -> valuation s env v -> valuation s' env v' ->
     valid s' f /\ sval v' f = sval v f).
Proof.
  intros Hr Hv Hs. pose proof (reachable_wf s Hr) as Hw.
  destruct (step_inv o s r s' Hw Hv Hs) as (Hw' & Hg & _).
  split; [by apply Hg|]. split; [by apply Hg|]. split; [by apply Hg|]. intros f env v v' Hf H1 H2.
  pose proof (grows_valid _ _ _ Hg Hf) as Hf'. split; [done|].
  rewrite (valuation_sval s env v f Hw H1 Hf), (valuation_sval s' env v' f Hw' H2 Hf').
  unfold sval. by rewrite (grows_ev s s').
Qed.

(* --- C04 --- *)
Lemma trivial_and s a b :
  reachable s -> valid s a -> valid s b ->
  (sidx a = sidx b \/ sidx a = 0 \/ sidx b = 0) ->
  exists f, create_and a b s = Some (f, s) /\
    (f = a \/ f = b \/ f = get_constant false) /\ find_and a b s = Some true.
Proof.
  intros Hr Ha Hb Hc. unfold create_and, find_and. destruct (order_cases a b) as [[-> Hle]|[-> Hlt]].
  - repeat case_decide; try lia; try (destruct (scompl a)); (eexists; split; [done|]; split; [auto|done]).
  - repeat case_decide; try lia; try (destruct (scompl b)); (eexists; split; [done|]; split; [auto|done]).
Qed.

Lemma find_and_exact s a b f s' :
  reachable s -> valid s a -> valid s b -> create_and a b s = Some (f, s') ->
  (find_and a b s = Some true /\ s' = s) \/
  (find_and a b s = Some false /\ size s' = S (size s) /\ sidx f = size s).
Proof.
  intros Hr Ha Hb Hc. pose proof (reachable_wf _ Hr) as Hw. unfold find_and. unfold create_and in Hc.
  assert (Hord : valid s (order a b).2 /\ sidx (order a b).1 <= sidx (order a b).2).
  { destruct (order_cases a b) as [[-> ?]|[-> ?]]; cbn; split; done || lia. }
  destruct (order a b) as [x y]. cbn in Hord. destruct Hord as [Hy Hle].
  case_decide as H1.
  { injection Hc as <- <-. left. rewrite decide_True by auto. done. }
  case_decide as H2.
  { injection Hc as <- <-. left. rewrite decide_True by auto. done. }
  rewrite decide_False by tauto.
  assert (Hxy : x <> y) by (intros ->; done).
  destruct (hash_find_wf s x y Hw Hxy) as (r & Hr' & Hrc). rewrite Hr' in *. cbn [mbind option_bind] in *.
  destruct Hrc as [[Hr0 Hk]|[-> Hno]].
  - rewrite decide_False in Hc by done. injection Hc as <- <-. left. by rewrite bool_decide_true.
  - rewrite decide_True in Hc by done. right. rewrite bool_decide_false by tauto. split; [done|].
    pose proof (new_and_wp s x y Hw Hy ltac:(lia) ltac:(lia) Hno) as Hn. unfold wp in Hn.
    rewrite Hc in Hn. destruct Hn as (_ & _ & -> & Hks). unfold size. rewrite Hks, app_length. cbn. lia.
Qed.

(* --- C06 --- *)
Lemma fanout_exact s n : reachable s -> n < size s ->
  fanout_size s n = Some (N.of_nat (references s n) mod 2 ^ 31)%N.
Proof.
  intros Hr%reachable_wf Hn. unfold fanout_size.
  destruct (wf_fo_lookup s n Hr Hn) as [h Hh]. rewrite Hh. cbn. f_equal.
  rewrite (wf_fo s Hr _ _ Hh). unfold u32.
  replace (2 ^ 32)%N with (2 ^ 31 * 2)%N by done.
  rewrite N.mod_mul_r by done.
  rewrite N.mul_comm, N.mod_add by done. apply N.mod_mod. done.
Qed.

Lemma never_dead s n : reachable s -> n < size s ->
  (N.of_nat (references s n) < 2 ^ 31)%N -> is_dead s n = Some false.
Proof.
  intros Hr%reachable_wf Hn Hlt. unfold is_dead.
  destruct (wf_fo_lookup s n Hr Hn) as [h Hh]. rewrite Hh. cbn. f_equal.
  rewrite (wf_fo s Hr _ _ Hh). unfold u32.
  rewrite N.mod_small by lia.
  destruct (decide (N.of_nat (references s n) = 0%N)) as [->|Hne]; [done|].
  apply N.bits_above_log2. apply N.log2_lt_pow2; lia.
Qed.

(* --- C07 --- *)
Lemma phase_exact s n p v : reachable s -> ph s !! n = Some p ->
  valuation s (fun _ => false) v -> p = v n.
Proof.
  intros Hr%reachable_wf Hp Hv. rewrite (wf_ph s Hr _ _ Hp). symmetry. apply valuation_unique; [done|done|].
  apply lookup_lt_Some in Hp. by rewrite (wf_lph s Hr) in Hp.
Qed.

Lemma phase_defined s n : reachable s -> n < size s -> is_Some (ph s !! n).
Proof. intros Hr%reachable_wf Hn. apply lookup_lt_is_Some. by rewrite (wf_lph s Hr). Qed.

(* --- C09 --- *)
Lemma hist_wf h s : hist h s -> wf s.
Proof. intros H. eapply reachable_wf, hist_reachable, H. Qed.

Lemma results_snoc p h o r : results p (h ++ [(o, r)]) = results p h ++ (if p o then [r] else []).
Proof. unfold results. rewrite List.filter_app, map_app. cbn. by destruct (p o). Qed.

Lemma hist_io h s : hist h s ->
  ins s = map sidx (results is_in_op h) /\ outs s = results is_out_op h /\ npi s = length (results is_pi_op h) /\ npo s = length (results is_po_op h).
Proof.
  induction 1 as [|h s o r s' Hh (IH1 & IH2 & IH3 & IH4) Hv Hs]; [done|].
  pose proof (hist_wf _ _ Hh) as Hw.
  destruct (step_inv o s r s' Hw Hv Hs) as (_ & _ & _ & Hpost).
  rewrite !results_snoc, map_app, !app_length.
  destruct o; cbn [op_post is_in_op is_out_op is_pi_op is_ro_op is_po_op is_ri_op orb] in *;
    rewrite ?app_nil_r; cbn [length map];
    try (destruct Hpost as [[_ E1 E2 E3 E4 _] _]; rewrite E1, E2, E3, E4, !Nat.add_0_r; done).
  - destruct Hpost as (-> & -> & -> & -> & ->). rewrite IH1. repeat split; try done; lia.
  - destruct Hpost as (-> & -> & -> & -> & ->). rewrite IH1. repeat split; try done; lia.
  - destruct Hpost as (-> & _ & -> & -> & -> & ->). rewrite IH2. repeat split; try done; lia.
  - destruct Hpost as (-> & _ & -> & -> & -> & ->). rewrite IH2. repeat split; try done; lia.
Qed.

Lemma ci_index_inverse s k n : reachable s -> ci_at s k = Some n -> ci_index s n = Some k.
Proof.
  intros Hr%reachable_wf Hk. destruct (wf_in s Hr _ _ Hk) as [_ Hn]. unfold ci_index.
  rewrite Hn. cbn. rewrite decide_True by done. by rewrite sdata_sig_of_data.
Qed.

Lemma results_split p q h :
  calls_before p q h -> (forall o, p o && q o = false) ->
  results (fun o => p o || q o) h = results p h ++ results q h.
Proof.
  intros Hb Hd. induction h as [|[o r] h IH]; [done|].
  assert (IH' : results (fun o => p o || q o) h = results p h ++ results q h).
  { apply IH. intros i j x y Hi Hj Hp Hq. pose proof (Hb (S i) (S j) x y Hi Hj Hp Hq). lia. }
  unfold results in *. cbn. specialize (Hd o).
  destruct (p o) eqn:Hp, (q o) eqn:Hq; cbn in *; try done.
  - by rewrite IH'.
  - rewrite IH'. assert (Hnil : List.filter (fun x => p x.1) h = []).
    { destruct (List.filter (fun x => p x.1) h) as [|x l] eqn:E; [done|]. exfalso.
      assert (Hin : In x (List.filter (fun x => p x.1) h)) by (rewrite E; by left).
      apply filter_In in Hin as [Hin Hpx]. apply elem_of_list_In, elem_of_list_lookup in Hin as [i Hi].
      pose proof (Hb (S i) 0 x (o, r) Hi eq_refl Hpx Hq). lia. }
    by rewrite Hnil.
Qed.

Lemma pi_numbering h s : hist h s -> calls_before is_pi_op is_ro_op h ->
  (forall k, pi_at s k = sidx <$> results is_pi_op h !! k) /\ (forall k, ro_at s k = sidx <$> results is_ro_op h !! k) /\ (forall n, n <> 0 -> n < size s ->
     is_pi s n = Some (bool_decide (n ∈ map sidx (results is_pi_op h))) /\    is_ro s n = Some (bool_decide (n ∈ map sidx (results is_ro_op h)))).
Proof.
  intros Hh Hb. destruct (hist_io h s Hh) as (Hins & _ & Hnpi & _).
  pose proof (hist_wf _ _ Hh) as Hw.
  change is_in_op with (fun o => is_pi_op o || is_ro_op o) in Hins.
  rewrite results_split, map_app in Hins by (done || by intros []).
  set (P := results is_pi_op h) in *. set (R := results is_ro_op h) in *.
  assert (Hlen : length (ins s) = length P + length R) by (rewrite Hins, app_length, !map_length; done).
  assert (HP : forall k, k < length P -> ins s !! k = sidx <$> P !! k).
  { intros k Hk. rewrite Hins, lookup_app_l by (by rewrite map_length). apply list_lookup_fmap. }
  assert (HR : forall k, ins s !! (length P + k) = sidx <$> R !! k).
  { intros k. rewrite Hins, lookup_app_r by (rewrite map_length; lia). rewrite map_length.
    replace (length P + k - length P) with k by lia. apply list_lookup_fmap. }
  split; [|split].
  - intros k. unfold pi_at. rewrite Hnpi. case_decide as Hk; [by apply HP|].
    rewrite lookup_ge_None_2 by lia. done.
  - intros k. unfold ro_at. rewrite Hnpi, Hlen. case_decide as Hk; [by apply HR|].
    rewrite lookup_ge_None_2 by lia. done.
  - intros n Hn0 Hn. destruct (lookup_lt_is_Some_2 (ks s) n Hn) as [[a b] Hk].
    unfold is_pi, is_ro. rewrite Hk. cbn [mbind option_bind fst snd].
    assert (Hin : forall k, ins s !! k = Some n -> a = b /\ sdata a = k).
    { intros k Hi. destruct (wf_in s Hw _ _ Hi) as [_ Hn']. rewrite Hk in Hn'. injection Hn' as -> ->.
      split; [done|]. apply sdata_sig_of_data. }
    assert (HinP : n ∈ map sidx P <-> exists k, k < length P /\ ins s !! k = Some n).
    { rewrite elem_of_list_lookup. split.
      - intros [k Hi]. exists k. pose proof (lookup_lt_Some _ _ _ Hi) as Hl. rewrite map_length in Hl.
        split; [done|]. rewrite HP by done. by rewrite <- list_lookup_fmap.
      - intros (k & Hl & Hi). exists k. rewrite HP in Hi by done. by rewrite <- list_lookup_fmap in Hi. }
    assert (HinR : n ∈ map sidx R <-> exists k, ins s !! (length P + k) = Some n).
    { rewrite elem_of_list_lookup. split; intros [k Hi]; exists k.
      - rewrite HR. by rewrite <- list_lookup_fmap.
      - rewrite HR in Hi. by rewrite <- list_lookup_fmap in Hi. }
    rewrite Hnpi. split; f_equal; rewrite <- bool_decide_and; apply bool_decide_ext.
    + rewrite HinP. split.
      * intros [-> Hlt]. exists (sdata b). split; [done|]. by apply (wf_ci s Hw).
      * intros (k & Hl & Hi). destruct (Hin _ Hi) as [-> <-]. done.
    + rewrite HinR. split.
      * intros [-> Hge]. exists (sdata b - length P).
        replace (length P + (sdata b - length P)) with (sdata b) by lia. by apply (wf_ci s Hw).
      * intros (k & Hi). destruct (Hin _ Hi) as [-> E]. split; [done|lia].
Qed.

Lemma po_numbering h s : hist h s -> calls_before is_po_op is_ri_op h ->
  (forall k, po_at s k = results is_po_op h !! k) /\ (forall k, ri_at s k = results is_ri_op h !! k).
Proof.
  intros Hh Hb. destruct (hist_io h s Hh) as (_ & Houts & _ & Hnpo).
  change is_out_op with (fun o => is_po_op o || is_ri_op o) in Houts.
  rewrite results_split in Houts by (done || by intros []).
  set (P := results is_po_op h) in *. set (R := results is_ri_op h) in *.
  split; intros k.
  - unfold po_at. rewrite Hnpo, Houts. case_decide as Hk; [by apply lookup_app_l|].
    by rewrite lookup_ge_None_2 by lia.
  - unfold ri_at. rewrite Hnpo, Houts, app_length. case_decide as Hk.
    + rewrite lookup_app_r by lia. f_equal. lia.
    + by rewrite lookup_ge_None_2 by lia.
Qed.

(* --- C05 --- *)
Record tinv (s : aig) (L : list nat) : Prop := {
  ti_tbl : tbl (ks s) (nx s) (hs s) (fun i => i ∈ L);
  ti_nd : NoDup L;
  ti_uniq : forall i j k, i ∈ L -> j ∈ L -> ks s !! i = Some k -> ks s !! j = Some k -> i = j;
  ti_ne : ne s = u64 (N.of_nat (length L))
}.

Lemma filter_ne_length (L : list nat) i : NoDup L -> i ∈ L ->
  length L = S (length (filter (fun j => j <> i) L)).
Proof.
  induction L as [|j L IH]; intros Hnd Hi; [by apply elem_of_nil in Hi|].
  apply NoDup_cons in Hnd as [Hj Hnd]. rewrite filter_cons.
  destruct (decide (j = i)) as [->|Hne].
  - rewrite decide_False by tauto. cbn. f_equal. clear IH Hi Hnd.
    induction L as [|x L IH]; [done|]. rewrite not_elem_of_cons in Hj. destruct Hj as [Hx Hj].
    rewrite filter_cons, decide_True by done. cbn. by rewrite <- IH.
  - rewrite decide_True by done. cbn. f_equal. apply IH; [done|].
    apply elem_of_cons in Hi as [->|Hi]; done.
Qed.

Lemma u64_pred n : u64 (u64 (N.of_nat (S n)) + 2 ^ 64 - 1) = u64 (N.of_nat n).
Proof.
  unfold u64. rewrite <- N.add_sub_assoc by done.
  rewrite N.add_mod_idemp_l by done.
  replace (N.of_nat (S n) + (2 ^ 64 - 1))%N with (N.of_nat n + 1 * 2 ^ 64)%N by lia.
  apply N.mod_add. done.
Qed.

Lemma table_hist_inv s L : table_hist s L -> tinv s L.
Proof.
  induction 1 as [s n Hn Hh Hl Hne|s L i k s' Hth IH Hk Hi HiL Hnk Hins|s L i k s' Hth IH HiL Hk Her|s L sz s' Hth IH Hsz Hr].
  - split.
    + rewrite Hh. eapply tbl_iff; [by apply tbl_empty|]. intros i. by rewrite elem_of_nil.
    + constructor.
    + by intros i j k ?%elem_of_nil.
    + by rewrite Hne.
  - destruct IH as [HT Hnd Hu Hne].
    destruct (hash_insert_spec s _ k i HT Hk Hi HiL) as (nl & hl & E & HT').
    rewrite Hins in E. injection E as ->. split; cbn.
    + eapply tbl_iff; [exact HT'|]. intros j. cbn. by rewrite elem_of_cons.
    + by constructor.
    + intros x y k'. rewrite !elem_of_cons. intros [->|Hx] [->|Hy] Kx Ky; [done| | |by eapply Hu].
      * exfalso. eapply Hnk; [exact Hy|]. congruence.
      * exfalso. eapply Hnk; [exact Hx|]. congruence.
    + rewrite Hne. by rewrite u64_succ.
  - destruct IH as [HT Hnd Hu Hne].
    destruct (hash_erase_spec s _ k i HT HiL Hk) as (nl & hl & E & HT').
    { intros j Hj Kj. by eapply Hu. }
    rewrite Her in E. injection E as ->. split; cbn [ks nx hs ne].
    + eapply tbl_iff; [exact HT'|]. intros j. cbn. rewrite elem_of_list_filter. tauto.
    + by apply NoDup_filter.
    + intros x y k' [_ Hx]%elem_of_list_filter [_ Hy]%elem_of_list_filter. by apply Hu.
    + rewrite Hne, (filter_ne_length L i Hnd HiL). apply u64_pred.
  - destruct IH as [HT Hnd Hu Hne].
    destruct (hash_reserve_spec s _ sz HT Hsz) as (nl & hl & E & HT' & _).
    rewrite Hr in E. injection E as ->. by split.
Qed.

Lemma table_find_exact s L k : table_hist s L ->
  exists r, hash_find k s = Some r /\
    (r <> 0 -> r ∈ L /\ ks s !! r = Some k) /\
    (r = 0 -> forall i, i ∈ L -> ks s !! i <> Some k) /\
    (forall i, i ∈ L -> ks s !! i = Some k -> r = i).
Proof.
  intros [HT Hnd Hu Hne]%table_hist_inv.
  destruct (tbl_find _ _ _ _ k s HT eq_refl eq_refl eq_refl) as (r & Hr & Hc).
  exists r. split; [done|]. destruct Hc as [(H0 & HE & Hk)|(-> & Hno)].
  - split; [done|]. split; [done|]. intros i Hi Hki. by eapply Hu.
  - split; [done|]. split; [done|]. intros i Hi Hki. by destruct (Hno i Hi).
Qed.

Lemma table_progress s L : table_hist s L ->
  (forall i k, ks s !! i = Some k -> i <> 0 -> i ∉ L -> is_Some (hash_insert k i s)) /\
  (forall i k, i ∈ L -> ks s !! i = Some k -> is_Some (hash_erase k s)) /\
  (forall sz, 0 < sz -> is_Some (hash_reserve sz s)).
Proof.
  intros [HT Hnd Hu Hne]%table_hist_inv. split; [|split].
  - intros i k Hk Hi HiL. destruct (hash_insert_spec s _ k i HT Hk Hi HiL) as (nl & hl & E & _). eauto.
  - intros i k HiL Hk. destruct (hash_erase_spec s _ k i HT HiL Hk) as (nl & hl & E & _); eauto.
  - intros sz Hsz. destruct (hash_reserve_spec s _ sz HT Hsz) as (nl & hl & E & _). eauto.
Qed.

Lemma table_count s L : table_hist s L -> NoDup L /\ ne s = u64 (N.of_nat (length L)).
Proof. intros [HT Hnd Hu Hne]%table_hist_inv. done. Qed.

Lemma num_gates_exact s : reachable s ->
  ne s = u64 (N.of_nat (length (filter (fun k : key => k.1 <> k.2) (ks s)))).
Proof. intros Hr%reachable_wf. apply (wf_ne s Hr). Qed.

Lemma topological s n a b : reachable s -> ks s !! n = Some (a, b) -> a <> b ->
  0 < sidx a /\ sidx a < sidx b /\ sidx b < n.
Proof. intros Hr%reachable_wf. by apply wf_gate. Qed.
