(* Circuits of factored forms. *)
From Verif Require Import Base Aig AigSem AigProofs AigApi AigReach Tt TtProofs Isop IsopProofs Factor FactorProofs FactorKernel.

(* The circuits are built by create_and alone: what has to hold of it, for networks in
   any condition (b_good), values of any kind (b_val), and failure allowed or not. *)
Definition may {S A} (T : Prop) (m : M S A) (s : S) (Q : A -> S -> Prop) : Prop :=
  match m s with Some (a, s') => Q a s' | None => T end.
Record builder := {
  b_env : Type;
  b_fail : Prop;
  b_good : aig -> Prop;
  b_val : aig -> b_env -> signal -> bool;
  b_not : forall s e f, b_val s e (snot f) = negb (b_val s e f);
  b_const : forall s c, b_good s -> valid s (get_constant c) /\ forall e, b_val s e (get_constant c) = c;
  b_ext : forall s s' e f, b_good s -> b_good s' -> ext s s' -> valid s f -> b_val s' e f = b_val s e f;
  b_and : forall s a b, b_good s -> valid s a -> valid s b ->
    may b_fail (create_and a b) s (fun f s' => b_good s' /\ ext s s' /\ valid s' f /\ forall e, b_val s' e f = b_val s e a && b_val s e b)
}.

Lemma may_bnd {S A B} T (m : M S A) (k : A -> M S B) s (Q : B -> S -> Prop) :
  may T m s (fun a s' => may T (k a) s' Q) -> may T (bnd m k) s Q.
Proof. unfold may, bnd. destruct (m s) as [[a s']|]; done. Qed.
Lemma may_mono {S A} T (m : M S A) s (P Q : A -> S -> Prop) : may T m s P -> (forall a s', P a s' -> Q a s') -> may T m s Q.
Proof. unfold may. destruct (m s) as [[a s']|]; eauto. Qed.
Lemma may_ret {S A} T (a : A) (s : S) (Q : A -> S -> Prop) : Q a s -> may T (ret a) s Q.
Proof. done. Qed.
Lemma may_lift {S A} T (o : option A) a (s : S) (Q : A -> S -> Prop) : o = Some a -> Q a s -> may T (lift o) s Q.
Proof. intros -> H. done. Qed.

Section builder.
Context (B : builder).
Definition cval (s : aig) (children : list signal) (env : b_env B) (i : nat) : bool :=
  match children !! i with Some f => b_val B s env f | None => false end.
Definition bmakes (s : aig) (val : b_env B -> bool) (f : signal) (s' : aig) : Prop :=
  b_good B s' /\ ext s s' /\ valid s' f /\ forall e, b_val B s' e f = val e.

(* m builds val on top of any extension of s *)
Definition gens (s : aig) (m : M aig signal) (val : b_env B -> bool) : Prop :=
  forall s1, ext s s1 -> b_good B s1 -> may (b_fail B) m s1 (bmakes s1 val).
Lemma gens_eq s m v w : (forall env, v env = w env) -> gens s m v -> gens s m w.
Proof.
  intros E H s1 He Hr. eapply may_mono; [by apply H|]. intros f s2 (? & ? & ? & Hv). split; [done|]. split; [done|]. split; [done|].
  intros env. by rewrite Hv.
Qed.
Lemma gens_ret s f : b_good B s -> valid s f -> gens s (ret f) (fun env => b_val B s env f).
Proof.
  intros Hg Hv s1 He Hr. apply may_ret. split; [done|]. split; [apply ext_refl|]. split; [by eapply ext_valid|].
  intros env. by apply b_ext.
Qed.
Lemma or_good s a b : b_good B s -> valid s a -> valid s b ->
  may (b_fail B) (create_or a b) s (bmakes s (fun e => b_val B s e a || b_val B s e b)).
Proof.
  intros Hg Ha Hb. unfold create_or. apply may_bnd. eapply may_mono; [apply b_and; [done|by apply valid_snot..]|].
  intros f s' (? & ? & ? & Hf). apply may_ret. split; [done|]. split; [done|]. split; [by apply valid_snot|].
  intros e. by rewrite b_not, Hf, !b_not, negb_andb, !negb_involutive.
Qed.
Lemma gens_and s m1 m2 v1 v2 : gens s m1 v1 -> gens s m2 v2 ->
  gens s (let! x := m1 in let! y := m2 in create_and x y) (fun env => v1 env && v2 env).
Proof.
  intros H1 H2 s1 He Hr. apply may_bnd. eapply may_mono; [by apply H1|]. intros x s2 (Hr2 & He2 & Hv2 & Hx).
  apply may_bnd. eapply may_mono; [apply H2; [by eapply ext_trans|done]|]. intros y s3 (Hr3 & He3 & Hv3 & Hy).
  eapply may_mono; [apply b_and; [done|by eapply ext_valid|done]|].
  intros f s4 (Hr4 & He4 & Hv4 & Hf). split; [done|]. split; [eauto using ext_trans|]. split; [done|].
  intros env. by rewrite Hf, Hy, (b_ext B s2 s3 _ _ Hr2 Hr3 He3 Hv2), Hx.
Qed.
Lemma gens_or s m1 m2 v1 v2 : gens s m1 v1 -> gens s m2 v2 ->
  gens s (let! x := m1 in let! y := m2 in create_or x y) (fun env => v1 env || v2 env).
Proof.
  intros H1 H2 s1 He Hr. apply may_bnd. eapply may_mono; [by apply H1|]. intros x s2 (Hr2 & He2 & Hv2 & Hx).
  apply may_bnd. eapply may_mono; [apply H2; [by eapply ext_trans|done]|]. intros y s3 (Hr3 & He3 & Hv3 & Hy).
  eapply may_mono; [apply or_good; [done|by eapply ext_valid|done]|].
  intros f s4 (Hr4 & He4 & Hv4 & Hf). split; [done|]. split; [eauto using ext_trans|]. split; [done|].
  intros env. by rewrite Hf, Hy, (b_ext B s2 s3 _ _ Hr2 Hr3 He3 Hv2), Hx.
Qed.
(* D * Q + R, where R may be missing *)
Lemma gens_factor s md mq (mr : M aig signal) (rem : sop) vd vq vr : gens s md vd -> gens s mq vq ->
  (if decide (rem = []) then forall env, vr env = false else gens s mr vr) ->
  gens s (let! x := md in let! y := mq in let! z := create_and x y in
          if decide (rem = []) then ret z else let! r := mr in create_or z r) (fun env => vd env && vq env || vr env).
Proof.
  intros H1 H2 H3 s1 He Hr. apply may_bnd. eapply may_mono; [by apply H1|]. intros x s2 (Hr2 & He2 & Hv2 & Hx).
  apply may_bnd. eapply may_mono; [apply H2; [by eapply ext_trans|done]|]. intros y s3 (Hr3 & He3 & Hv3 & Hy).
  apply may_bnd. eapply may_mono; [apply b_and; [done|by eapply ext_valid|done]|]. intros f s4 (Hr4 & He4 & Hv4 & Hf).
  destruct (decide (rem = [])).
  - apply may_ret. split; [done|]. split; [eauto using ext_trans|]. split; [done|].
    intros env. by rewrite Hf, Hy, (b_ext B s2 s3 _ _ Hr2 Hr3 He3 Hv2), Hx, H3, orb_false_r.
  - apply may_bnd. eapply may_mono; [apply H3; [eauto using ext_trans|done]|]. intros r s5 (Hr5 & He5 & Hv5 & Hrv).
    eapply may_mono; [apply or_good; [done|by eapply ext_valid|done]|].
    intros g s6 (Hr6 & He6 & Hv6 & Hg). split; [done|]. split; [eauto 6 using ext_trans|]. split; [done|].
    intros env. by rewrite Hg, Hrv, (b_ext B s4 s5 _ _ Hr4 Hr5 He5 Hv4), Hf, Hy, (b_ext B s2 s3 _ _ Hr2 Hr3 He3 Hv2), Hx.
Qed.
End builder.

Lemma filter_split (P : nat -> Prop) `{forall x, Decision (P x)} b n k i : filter P (seq b n) !! k = Some i ->
  b <= i < b + n /\ filter P (seq b (i - b)) = take k (filter P (seq b n)) /\ filter P (seq i (b + n - i)) = drop k (filter P (seq b n)).
Proof.
  intros Hk. assert (Hi : i ∈ filter P (seq b n)) by (by eapply elem_of_list_lookup_2).
  apply elem_of_list_filter in Hi as [Hp Hi]. apply elem_of_seq in Hi. split; [lia|].
  assert (E : filter P (seq b n) = filter P (seq b (i - b)) ++ filter P (seq i (b + n - i))).
  { rewrite <- filter_app. f_equal. replace n with ((i - b) + (b + n - i)) at 1 by lia. rewrite seq_app. do 2 f_equal; lia. }
  assert (El : length (filter P (seq b (i - b))) = k).
  { assert (Hnd : NoDup (filter P (seq b n))) by (apply NoDup_filter, NoDup_seq).
    eapply NoDup_lookup; [exact Hnd| |exact Hk]. rewrite E, lookup_app_r by lia. rewrite Nat.sub_diag.
    destruct (b + n - i) as [|m] eqn:Em; [lia|]. cbn [seq]. by rewrite filter_cons_True. }
  rewrite E, <- El. split; [by rewrite take_app|by rewrite drop_app].
Qed.

Section circuits.
  Context (B : builder) (s : aig) (Hgs : b_good B s) (children : list signal) (Hch : Forall (valid s) children) (nl : nat) (Hnl : nl <= 2 * length children) (Hn63 : nl <= 63).
  Notation x env := (cval B s children env).

  Lemma gens_and_circuit fuel c b e : e <= nl -> 0 < length (filter (fun l => has_lit c l = true) (seq b (e - b))) <= fuel ->
    gens B s (gen_and_circuit_rec fuel children c b e) (fun env => forallb (lit_val (x env)) (filter (fun l => has_lit c l = true) (seq b (e - b)))).
  Proof.
    revert b e. induction fuel as [|fuel IH]; intros b e He Hl; [lia|]. cbn [gen_and_circuit_rec].
    destruct (filter _ _) as [|l [|l2 ls]] eqn:El; [cbn in Hl; lia| |].
    - assert (Hin : l ∈ [l]) by left. rewrite <- El in Hin. apply elem_of_list_filter in Hin as [_ Hin]. apply elem_of_seq in Hin.
      destruct (lookup_lt_is_Some_2 children (l / 2)) as [f Hf]; [apply Nat.div_lt_upper_bound; lia|].
      intros s1 He1 Hr1. apply may_bnd. eapply may_lift; [done|]. revert s1 He1 Hr1.
      change (gens B s (ret (if Nat.odd l then f else snot f)) (fun env => forallb (lit_val (x env)) [l])).
      assert (Hvf : valid s f) by (by eapply (Forall_lookup_1 (valid s))).
      eapply gens_eq; [|apply gens_ret; [done|by destruct (Nat.odd l)]]. intros env. cbn [forallb]. rewrite andb_true_r. unfold lit_val, cval. rewrite Hf.
      destruct (Nat.odd l); [done|apply b_not].
    - set (L := l :: l2 :: ls) in *. assert (HL : 2 <= length L) by (cbn; lia).
      destruct (lookup_lt_is_Some_2 L (length L / 2)) as [i Hi]; [apply Nat.div_lt; lia|].
      intros s1 He1 Hr1. apply may_bnd. eapply may_lift; [done|]. revert s1 He1 Hr1.
      assert (H1 : 1 <= length L / 2) by (apply Nat.div_le_lower_bound; lia).
      assert (H2 : length L / 2 < length L) by (apply Nat.div_lt; lia).
      rewrite <- El in Hi. apply filter_split in Hi as (Hib & Et & Ed). rewrite El in Et, Ed.
      replace (b + (e - b) - i) with (e - i) in Ed by lia.
      change (gens B s (let! x := gen_and_circuit_rec fuel children c b i in let! y := gen_and_circuit_rec fuel children c i e in create_and x y)
        (fun env => forallb (lit_val (x env)) L)).
      eapply gens_eq; [|apply gens_and; apply IH].
      + intros env. cbn beta. rewrite Et, Ed, <- forallb_app, take_drop. done.
      + lia.
      + rewrite Et, take_length. lia.
      + lia.
      + rewrite Ed, drop_length. lia.
  Qed.
  Lemma prod_val_filter env c : (c < 2 ^ N.of_nat nl)%N ->
    prod_val (x env) c = forallb (lit_val (x env)) (filter (fun l => has_lit c l = true) (seq 0 nl)).
  Proof.
    intros Hc. apply bool_iff. rewrite prod_val_spec by (eapply N.lt_trans; [exact Hc|]; apply N.pow_lt_mono_r; lia).
    rewrite forallb_forall. setoid_rewrite <- elem_of_list_In. setoid_rewrite elem_of_list_filter. setoid_rewrite elem_of_seq. split.
    - intros H l [Hl _]. auto.
    - intros H l Hl. apply H. split; [done|]. apply (proj1 (below_bits _ _) Hc) in Hl. lia.
  Qed.
  Lemma gens_product c : (c < 2 ^ N.of_nat nl)%N -> c <> 0%N ->
    gens B s (gen_and_circuit_rec (S nl) children c 0 nl) (fun env => prod_val (x env) c).
  Proof.
    intros Hc H0. eapply gens_eq; [|apply gens_and_circuit]; cbn beta; rewrite ?Nat.sub_0_r.
    - intros env. symmetry. by apply prod_val_filter.
    - done.
    - split; [|etrans; [apply filter_length|]; rewrite seq_length; lia].
      destruct (bit_ex c H0) as [n Hn]. pose proof (proj1 (below_bits _ _) Hc _ Hn) as Hl.
      assert (He : N.to_nat n ∈ filter (fun l => has_lit c l = true) (seq 0 nl)).
      { apply elem_of_list_filter. split; [unfold has_lit; by rewrite N2Nat.id|]. apply elem_of_seq. lia. }
      destruct (filter _ _); [by apply elem_of_nil in He|]. cbn. lia.
  Qed.

  Definition within (f : sop) : Prop := Forall (fun c => (c < 2 ^ N.of_nat nl)%N) f.
  Lemma within_elem f c : within f -> c ∈ f -> (c < 2 ^ N.of_nat nl)%N.
  Proof. intros H Hc. by apply (proj1 (Forall_forall _ _) H). Qed.
  Lemma within_unmarked f : within f -> unmarked f.
  Proof. intros H. eapply Forall_impl; [exact H|]. cbn beta. intros c Hc. eapply N.lt_le_trans; [exact Hc|]. apply N.pow_le_mono_r; lia. Qed.
  Lemma within_sub f g : within f -> (forall q, q ∈ g -> exists c, c ∈ f /\ sub q c) -> within g.
  Proof.
    intros Hu H. apply Forall_forall. intros q Hq. destruct (H q Hq) as (c & Hc & Hs). eapply sub_below; [done|]. by eapply within_elem.
  Qed.
  Lemma sop_val_app y f g : sop_val y (f ++ g) = sop_val y f || sop_val y g.
  Proof. apply existsb_app. Qed.

  Lemma gens_andor fuel f : within f -> 0%N ∉ f -> 0 < length f < fuel ->
    gens B s (gen_andor_circuit_rec fuel children f nl) (fun env => sop_val (x env) f).
  Proof.
    revert f. induction fuel as [|fuel IH]; intros f Hw H0 Hl; [lia|]. cbn [gen_andor_circuit_rec].
    destruct f as [|c [|c2 f]]; [cbn in Hl; lia| |].
    - eapply gens_eq; [|apply gens_product].
      + intros env. cbn. by rewrite orb_false_r.
      + eapply within_elem; [done|left].
      + intros ->. apply H0. left.
    - set (L := c :: c2 :: f) in *. assert (HL : 2 <= length L) by (cbn; lia).
      assert (H1 : 1 <= length L / 2) by (apply Nat.div_le_lower_bound; lia).
      assert (H2 : length L / 2 < length L) by (apply Nat.div_lt; lia).
      eapply gens_eq; [|apply gens_or; apply IH].
      + intros env. cbn beta. by rewrite <- sop_val_app, take_drop.
      + by apply Forall_take. + intros H. apply H0. rewrite <- (take_drop (length L / 2) L). apply elem_of_app. by left.
      + rewrite take_length. lia.
      + by apply Forall_drop. + intros H. apply H0. rewrite <- (take_drop (length L / 2) L). apply elem_of_app. by right.
      + rewrite drop_length. lia.
  Qed.

  Definition good (f : sop) : Prop := within f /\ anti f /\ f <> [] /\ 0%N ∉ f.
  Lemma good_sub f g : good f -> g `sublist_of` f -> g <> [] -> good g.
  Proof.
    intros (H1 & H2 & H3 & H4) Hs Hg. split; [|split; [by eapply anti_sublist|split; [done|]]].
    - eapply within_sub; [done|]. intros q Hq. exists q. split; [by eapply elem_of_sublist|apply sub_refl].
    - intros H. apply H4. by eapply elem_of_sublist.
  Qed.

  Lemma most_lit_fold f c ls m t : t <= 1 \/ (exists l, m = Some l /\ has_lit c l = true /\ t = occurs f l /\ 1 < t) ->
    let r := fold_left (fun '(m, times) l =>
      if has_lit c l then (if decide (times < occurs f l) then (Some l, occurs f l) else (m, times)) else (m, times)) ls (m, t) in
    r.2 <= 1 \/ (exists l, r.1 = Some l /\ has_lit c l = true /\ r.2 = occurs f l /\ 1 < r.2).
  Proof.
    revert m t. induction ls as [|l ls IH]; intros m t H; [done|]. cbn [fold_left].
    destruct (has_lit c l) eqn:El; [|by apply IH]. case_decide as Ed; [|by apply IH]. apply IH.
    destruct (decide (occurs f l <= 1)); [by left|]. right. exists l. split; [done|]. split; [done|]. split; [done|lia].
  Qed.
  Lemma most_lit_mono f c ls m t :
    let r := fold_left (fun '(m, times) l =>
      if has_lit c l then (if decide (times < occurs f l) then (Some l, occurs f l) else (m, times)) else (m, times)) ls (m, t) in
    t <= r.2 /\ forall l, l ∈ ls -> has_lit c l = true -> occurs f l <= r.2.
  Proof.
    revert m t. induction ls as [|l ls IH]; intros m t; [split; [done|]; intros l Hl; by apply elem_of_nil in Hl|]. cbn [fold_left].
    destruct (has_lit c l) eqn:El; [case_decide as Ed|].
    - destruct (IH (Some l) (occurs f l)) as [H1 H2]. split; [etrans; [|exact H1]; lia|]. intros l' Hl' Hc. apply elem_of_cons in Hl' as [->|]; auto.
    - destruct (IH m t) as [H1 H2]. split; [done|]. intros l' Hl' Hc. apply elem_of_cons in Hl' as [->|]; [etrans; [|exact H1]; lia|auto].
    - destruct (IH m t) as [H1 H2]. split; [done|]. intros l' Hl' Hc. apply elem_of_cons in Hl' as [->|]; [congruence|auto].
  Qed.
  Lemma most_lit_some f c l0 : l0 < nl -> has_lit c l0 = true -> 1 < occurs f l0 ->
    exists l, sop_most_lit f c nl = Some l /\ has_lit c l = true /\ 1 < occurs f l.
  Proof.
    intros Hl Hc Ho. unfold sop_most_lit.
    pose proof (most_lit_fold f c (seq 0 nl) None 1 (or_introl (le_n 1))) as H1.
    pose proof (most_lit_mono f c (seq 0 nl) None 1) as [_ H2]. specialize (H2 l0).
    destruct H1 as [H1|(l & H1 & H3 & H4 & H5)].
    - assert (l0 ∈ seq 0 nl) as Hin by (apply elem_of_seq; lia). specialize (H2 Hin Hc). lia.
    - exists l. split; [done|]. split; [done|lia].
  Qed.
  Lemma occurs_two f l c d : c ∈ f -> d ∈ f -> c <> d -> has_lit c l = true -> has_lit d l = true -> 1 < occurs f l.
  Proof.
    intros Hc Hd Hne H1 H2. unfold occurs.
    assert (Hc' : c ∈ filter (fun c => has_lit c l = true) f) by (by apply elem_of_list_filter).
    assert (Hd' : d ∈ filter (fun c => has_lit c l = true) f) by (by apply elem_of_list_filter).
    destruct (filter _ f) as [|a [|b g]]; [by apply elem_of_nil in Hc'| |cbn; lia].
    apply elem_of_list_singleton in Hc', Hd'. congruence.
  Qed.
  Lemma occurs_two_inv f l : NoDup f -> 1 < occurs f l -> exists c d, c ∈ f /\ d ∈ f /\ c <> d /\ has_lit c l = true /\ has_lit d l = true.
  Proof.
    intros Hn. unfold occurs. destruct (filter (fun c => has_lit c l = true) f) as [|a [|b g]] eqn:E; cbn; [lia|lia|]. intros _.
    assert (Hn' : NoDup (a :: b :: g)) by (rewrite <- E; by apply NoDup_filter).
    assert (Ha : a ∈ a :: b :: g) by left. assert (Hb : b ∈ a :: b :: g) by (right; left). rewrite <- E in Ha, Hb.
    apply elem_of_list_filter in Ha as [? ?], Hb as [? ?]. exists a, b. split; [done|]. split; [done|]. split; [|done].
    apply NoDup_cons in Hn' as [Hx _]. intros ->. apply Hx. left.
  Qed.
  Lemma within_lit f c l : within f -> c ∈ f -> has_lit c l = true -> l < nl.
  Proof. intros Hw Hc Hl. pose proof (within_elem _ _ Hw Hc) as Hb. apply (proj1 (below_bits _ _) Hb) in Hl. lia. Qed.

  Lemma quo_lit_good f l : good f -> 1 < occurs f l -> good (quo f (2 ^ N.of_nat l)) /\
    lits (quo f (2 ^ N.of_nat l)) < lits f /\ lits (rest f (2 ^ N.of_nat l)) < lits f.
  Proof.
    intros (Hw & Ha & Hn & H0) Ho. destruct (occurs_two_inv f l) as (c & d & Hc & Hd & Hne & Hcl & Hdl); [by destruct Ha|done|].
    assert (Hsub : forall c, has_lit c l = true -> sub (2 ^ N.of_nat l) c).
    { intros c' Hc' n. rewrite N.pow2_bits_eqb. by intros <-%N.eqb_eq. }
    assert (H2 : 2 <= length (quo f (2 ^ N.of_nat l))) by (eapply occurs_quo; eauto).
    pose proof (quo_anti f (2 ^ N.of_nat l) Ha) as Hqa.
    assert (Hg : good (quo f (2 ^ N.of_nat l))).
    { split; [|split; [done|split]].
      - eapply within_sub; [done|]. intros q Hq. apply quo_elem in Hq as [_ Hq]. eauto using sub_lor_l.
      - intros E. rewrite E in H2. cbn in H2. lia.
      - intros Hz. by eapply (anti_nz _ 0). }
    split; [done|]. pose proof (quo_lits f (2 ^ N.of_nat l)) as E.
    assert (Hp : 0 < pop (2 ^ N.of_nat l)).
    { apply pop_pos; [|apply N.pow_nonzero; lia]. pose proof (within_lit _ _ _ Hw Hc Hcl). apply N.pow_lt_mono_r; lia. }
    nia.
  Qed.
  Lemma cube_val y f d : sop_val y f = prod_val y d && sop_val y (quo f d) || sop_val y (rest f d).
  Proof.
    apply bool_iff. rewrite orb_true_iff, andb_true_iff, !sop_val_true. split.
    - intros (c & Hc & Hv). destruct (decide (N.land c d = d)) as [E|E].
      + left. rewrite sub_land in E. rewrite <- (lor_ldiff c d E), prod_val_lor, andb_true_iff in Hv. destruct Hv as [Hv1 Hv2]. split; [done|].
        exists (N.ldiff c d). split; [|done]. apply quo_elem. split; [apply ldiff_apart|by rewrite lor_ldiff].
      + right. exists c. split; [|done]. cbn. by apply elem_of_list_filter.
    - intros [[Hv (q & Hq & Hv')]|(c & Hc & Hv)].
      + apply quo_elem in Hq as [_ Hq]. exists (N.lor q d). split; [done|]. by rewrite prod_val_lor, Hv, Hv'.
      + exists c. split; [|done]. by eapply elem_of_sublist, rest_sublist.
  Qed.

  Lemma gens_lit_factor rec f c l0 : good f -> l0 < nl -> has_lit c l0 = true -> 1 < occurs f l0 ->
    (forall g, good g -> lits g < lits f -> gens B s (rec g) (fun env => sop_val (x env) g)) ->
    gens B s (lit_factor rec children f c nl) (fun env => sop_val (x env) f).
  Proof.
    intros Hg Hl0 Hc0 Ho0 Hrec. destruct (most_lit_some f c l0 Hl0 Hc0 Ho0) as (l & El & Hcl & Ho).
    unfold lit_factor, sop_best_lit. rewrite El. cbn [mbind option_bind].
    destruct (quo_lit_good f l Hg Ho) as (Hq & Hlq & Hlr).
    assert (Hln : l < nl). { destruct (occurs_two_inv f l) as (a & _ & Ha & _ & _ & Hal & _); [by destruct Hg as (_ & [? _] & _)|done|]. eapply within_lit; [|done|done]. by destruct Hg. }
    set (d := (2 ^ N.of_nat l)%N) in *.
    intros s1 He Hr. apply may_bnd. eapply may_lift; [done|]. revert s1 He Hr.
    destruct (sop_divide_by_cube f d) as [q r] eqn:Ed.
    assert (Eq : quo f d = q) by (by rewrite Ed). assert (Er : rest f d = r) by (by rewrite Ed).
    eapply gens_eq; [|eapply (gens_factor B s _ _ (rec r) r _ _ (fun env => sop_val (x env) r)); [apply gens_product|apply Hrec|]].
    - intros env. cbn beta. by rewrite (cube_val _ f d), Eq, Er.
    - apply N.pow_lt_mono_r; lia.
    - apply N.pow_nonzero. lia.
    - done.
    - done.
    - destruct (decide (r = [])) as [->|Hne]; [done|]. apply Hrec; [|done].
      apply (good_sub f); [done| |done]. rewrite <- Er. apply rest_sublist.
  Qed.

  Lemma product_nodup D Q d : d ∈ D -> NoDup (product D Q) -> NoDup Q.
  Proof.
    intros Hd. induction Q as [|q Q IH]; [constructor|]. unfold product in *. cbn [flat_map].
    intros [H1 [H2 H3]]%NoDup_app. constructor; [|by apply IH]. intros Hq. apply (H2 (N.lor q d)).
    - apply elem_of_list_In, in_map. by apply elem_of_list_In.
    - apply elem_of_list_In, in_flat_map. exists q. split; [by apply elem_of_list_In|]. apply in_map. by apply elem_of_list_In.
  Qed.
  Lemma filter_all (P : N -> Prop) `{forall x, Decision (P x)} (l : sop) : (forall c, c ∈ l -> P c) -> filter P l = l.
  Proof.
    intros Hp. induction l as [|c l IH]; [done|]. rewrite filter_cons_True by (apply Hp; left). f_equal. apply IH. intros c' ?. apply Hp. by right.
  Qed.
  Lemma gens_gen_factor fuel f : good f -> lits f < fuel ->
    gens B s (gen_factor_rec fuel children f nl) (fun env => sop_val (x env) f).
  Proof.
    revert f. induction fuel as [|fuel IH]; intros F Hg Hfu; [lia|]. cbn [gen_factor_rec].
    pose proof Hg as (Hw & Ha & Hn & H0). pose proof (within_unmarked _ Hw) as Hu.
    rewrite decide_False by done.
    assert (IH' : forall g, good g -> lits g < lits F -> gens B s (gen_factor_rec fuel children g nl) (fun env => sop_val (x env) g)).
    { intros g Hgg Hlg. apply IH; [done|lia]. }
    destruct (good_divisor_spec F Hu Ha nl) as [[E Hno]|(C & HC & Hl & E)]; [done| | |].
    { intros c l Hc Hcl. by eapply within_lit. }
    { rewrite E. intros s1 He Hr. apply may_bnd. eapply may_lift; [done|]. revert s1 He Hr. apply gens_andor; [done|done|].
      destruct F; [done|]. cbn. lia. }
    rewrite E. intros s1 He Hr. apply may_bnd. eapply may_lift; [done|]. revert s1 He Hr.
    set (D := quo F C) in *. destruct (sop_divide_spec F D Hu) as (Q & R & Ed & Hd).
    intros s1 He Hr. apply may_bnd. eapply may_lift; [exact Ed|]. revert s1 He Hr.
    assert (HD : anti D) by (by apply quo_anti).
    destruct (division_cost F Hu Ha C Q R Hl Hd) as (HCQ & HuQ & HuR & _). fold D in Hd.
    assert (exists d1 d2, d1 ∈ D /\ d2 ∈ D /\ d1 <> d2) as (d1 & d2 & Hd1 & Hd2 & Hd12).
    { destruct HD as [HD _]. destruct D as [|a [|b g]]; cbn in Hl; [lia|lia|]. exists a, b. split; [left|]. split; [right; left|].
      apply NoDup_cons in HD as [HD _]. intros ->. apply HD. left. }
    assert (HQocc : forall q l, q ∈ Q -> has_lit q l = true -> 1 < occurs F l).
    { intros q l Hq Hql. apply (occurs_two F l (N.lor q d1) (N.lor q d2)).
      - by eapply division_in. - by eapply division_in.
      - intros E'. apply lor_cancel in E'; [done| |]; by eapply division_apart.
      - by apply sub_lor_l. - by apply sub_lor_l. }
    assert (HQw : within Q).
    { eapply within_sub; [done|]. intros q Hq. exists (N.lor q d1). split; [by eapply division_in|apply sub_lor_l]. }
    assert (HQ0 : 0%N ∉ Q).
    { intros Hz. assert (Hin : N.lor 0 d1 ∈ F) by (by eapply division_in). rewrite N.lor_0_l in Hin.
      assert (Hin' : N.lor C d1 ∈ F) by (by eapply division_in). destruct Ha as [_ Ha].
      assert (E' : d1 = N.lor C d1) by (apply Ha; [done|done|apply sub_lor_r]).
      assert (Hap : N.land C d1 = 0%N) by (by eapply division_apart). apply HC.
      destruct (bit_ex C HC) as [n Hbn]. rewrite land0 in Hap. exfalso. apply (Hap n Hbn). rewrite E'. by apply sub_lor_l. }
    destruct Q as [|q [|q2 Q']]; [by apply elem_of_nil in HCQ| |].
    { assert (Hq0 : q <> 0%N) by (intros ->; apply HQ0; left). destruct (bit_ex q Hq0) as [n Hbn].
      assert (Hql : has_lit q (N.to_nat n) = true) by (unfold has_lit; by rewrite N2Nat.id).
      apply (gens_lit_factor _ _ _ (N.to_nat n)); [done| |done| |done].
      - eapply within_lit; [exact HQw|left|done]. - eapply HQocc; [left|done]. }
    set (Q := q :: q2 :: Q') in *. assert (HQl : 2 <= length Q) by (cbn; lia).
    (* the quotient has no containment *)
    assert (HDne : D <> []) by (intros E'; rewrite E' in Hl; cbn in Hl; lia).
    pose proof (division_perm _ _ _ _ Hd (proj1 HD)) as Hperm.
    assert (HQinc : forall a b, a ∈ Q -> b ∈ Q -> sub a b -> a = b).
    { intros a b Hqa Hqb Hs. assert (E' : N.lor a d1 = N.lor b d1).
      { destruct Ha as [_ Ha]. apply Ha; [by eapply division_in|by eapply division_in|]. apply sub_lor. split; [|apply sub_lor_r].
        eapply sub_trans; [done|apply sub_lor_l]. }
      rewrite !(N.lor_comm _ d1) in E'. apply lor_cancel in E'; [done| |]; rewrite N.land_comm; by eapply division_apart. }
    assert (HQn : NoDup Q).
    { assert (Hnp : NoDup (product D Q)).
      { assert (Hnf : NoDup (product D Q ++ R)) by (rewrite <- Hperm; by destruct Ha). by apply NoDup_app in Hnf as [? _]. }
      by eapply product_nodup. }
    set (m := common Q). assert (Hmq : forall q, q ∈ Q -> sub m q) by (intros ?; apply common_sub).
    assert (Ecf : sop_make_cube_free Q = quo Q m).
    { unfold sop_make_cube_free. fold m. cbn [sop_divide_by_cube fst].
      assert (Ef : filter (fun c => N.land c m = m) Q = Q).
      { apply filter_all. intros c Hc. apply sub_land. by apply Hmq. }
      rewrite Ef. case_decide as Em; [|done]. rewrite Em. rewrite <- (map_id Q) at 1. apply map_ext. intros c. by rewrite N.ldiff_0_r. }
    rewrite Ecf. set (Q2 := quo Q m).
    assert (HQa : anti Q) by done. assert (HQ2a : anti Q2) by (by apply quo_anti).
    assert (HQ2l : length Q2 = length Q).
    { unfold Q2. rewrite <- Ecf. unfold sop_make_cube_free. case_decide; [done|apply map_length]. }
    assert (HQ2e : forall p, p ∈ Q2 <-> N.land p m = 0%N /\ N.lor p m ∈ Q) by (intros p; apply quo_elem).
    assert (HQ2w : within Q2).
    { eapply within_sub; [exact HQw|]. intros p Hp. apply HQ2e in Hp as [_ Hp]. eauto using sub_lor_l. }
    assert (HQ2ne : Q2 <> []) by (intros E'; rewrite E' in HQ2l; cbn in HQ2l; lia).
    assert (HQ2g : good Q2).
    { split; [done|]. split; [done|]. split; [done|]. intros Hz. by eapply (anti_nz Q2 0); [| |exact Hz|]; [|lia|]. }
    destruct (sop_divide_spec F Q2 Hu) as (D2 & R2 & Ed2 & Hdv2).
    cbv zeta. intros s1 He Hr. apply may_bnd. eapply may_lift; [exact Ed2|]. revert s1 He Hr.
    assert (HD2in : forall d, d ∈ D -> N.lor d m ∈ D2).
    { intros d Hdd. eapply division_full; [exact Hdv2|done|]. split; [|split].
      - intros p Hp. apply HQ2e in Hp as [Hp1 Hp2]. rewrite N.land_comm. apply land0. intros n Hn1 Hn2.
        rewrite N.lor_spec, orb_true_iff in Hn2. destruct Hn2 as [Hn2|Hn2].
        + pose proof (division_apart _ _ _ _ Hd _ _ Hp2 Hdd) as Hap. rewrite land0 in Hap. apply (Hap n); [by apply sub_lor_l|done].
        + rewrite land0 in Hp1. by apply (Hp1 n).
      - intros p p' Hp Hp' Hs. apply HQ2e in Hp as [Hp1 Hp2], Hp' as [Hp1' Hp2'].
        assert (E' : N.lor p' m = N.lor p m).
        { apply HQinc; [done|done|]. apply sub_lor. split; [|apply sub_lor_r]. intros n Hbn.
          pose proof (Hs n Hbn) as Hx. rewrite !N.lor_spec, !orb_true_iff in Hx. rewrite N.lor_spec, orb_true_iff.
          destruct Hx as [[Hx|Hx]|Hx]; [|by right|by left]. exfalso.
          pose proof (division_apart _ _ _ _ Hd _ _ Hp2' Hdd) as Hap. rewrite land0 in Hap. apply (Hap n); [by apply sub_lor_l|done]. }
        rewrite !(N.lor_comm _ m) in E'. apply lor_cancel in E'; [done| |]; by rewrite N.land_comm.
      - intros p Hp. apply HQ2e in Hp as [Hp1 Hp2]. replace (N.lor (N.lor d m) p) with (N.lor (N.lor p m) d).
        + exact (division_in _ _ _ _ _ _ Hd Hp2 Hdd).
        + apply N.bits_inj. intros n. rewrite !N.lor_spec. by destruct (N.testbit p n), (N.testbit m n), (N.testbit d n). }
    assert (exists p1 p2, p1 ∈ Q2 /\ p2 ∈ Q2 /\ p1 <> p2) as (p1 & p2 & Hp1 & Hp2 & Hp12).
    { destruct HQ2a as [Hx _]. destruct Q2 as [|a [|b g]]; cbn in HQ2l; [lia|lia|]. exists a, b. split; [left|]. split; [right; left|].
      apply NoDup_cons in Hx as [Hx _]. intros ->. apply Hx. left. }
    pose proof (division_perm _ _ _ _ Hdv2 (proj1 HQ2a)) as Hperm2.
    assert (HD2n : NoDup D2).
    { assert (Hnp : NoDup (product Q2 D2)).
      { assert (Hnf : NoDup (product Q2 D2 ++ R2)) by (rewrite <- Hperm2; by destruct Ha). by apply NoDup_app in Hnf as [? _]. }
      by eapply product_nodup. }
    assert (HD2a : anti D2).
    { split; [done|]. intros a b Hqa Hqb Hs. assert (E' : N.lor a p1 = N.lor b p1).
      { destruct Ha as [_ Ha]. apply Ha; [by apply (division_in _ _ _ _ _ _ Hdv2)|by apply (division_in _ _ _ _ _ _ Hdv2)|]. apply sub_lor. split; [|apply sub_lor_r].
        eapply sub_trans; [done|apply sub_lor_l]. }
      rewrite !(N.lor_comm _ p1) in E'. apply lor_cancel in E'; [done| |]; rewrite N.land_comm; by apply (division_apart _ _ _ _ Hdv2). }
    assert (HD2l : 2 <= length D2).
    { assert (Hi1 := HD2in d1 Hd1). assert (Hi2 := HD2in d2 Hd2). assert (Hne : N.lor d1 m <> N.lor d2 m).
      { intros E'. rewrite !(N.lor_comm _ m) in E'. apply Hd12. apply HQ2e in Hp1 as [_ Hpq].
        apply lor_cancel in E'; [done| |]; apply land0; intros n Hn1 Hn2.
        - pose proof (division_apart _ _ _ _ Hd _ _ Hpq Hd1) as Hap. rewrite land0 in Hap. apply (Hap n); [by apply sub_lor_r|done].
        - pose proof (division_apart _ _ _ _ Hd _ _ Hpq Hd2) as Hap. rewrite land0 in Hap. apply (Hap n); [by apply sub_lor_r|done]. }
      destruct D2 as [|a [|b g]]; [by apply elem_of_nil in Hi1| |cbn; lia].
      apply elem_of_list_singleton in Hi1, Hi2. congruence. }
    assert (HD2w : within D2).
    { apply (within_sub F); [done|]. intros q' Hq'. exists (N.lor q' p1). split; [by apply (division_in _ _ _ _ _ _ Hdv2)|apply sub_lor_l]. }
    destruct (sop_is_cube_free D2) eqn:Ecff.
    - (* D * Q + R *)
      assert (HD2g : good D2).
      { split; [done|]. split; [done|]. split; [intros E'; rewrite E' in HD2l; cbn in HD2l; lia|]. intros Hz. by eapply (anti_nz D2 0). }
      assert (Hlits : lits F = length Q2 * lits D2 + length D2 * lits Q2 + lits R2).
      { rewrite (lits_perm _ _ Hperm2), lits_app, lits_product by (by apply (division_apart _ _ _ _ Hdv2)). done. }
      assert (Hpos : forall g, good g -> 0 < lits g).
      { intros g (Gw & Ga & Gn & G0). destruct g as [|a g]; [done|]. rewrite lits_cons. assert (0 < pop a); [|lia].
        apply pop_pos; [|intros ->; apply G0; left]. pose proof (within_unmarked _ Gw) as Gu. apply unmarked_small in Gu. by apply Forall_cons in Gu as [? _]. }
      pose proof (Hpos _ HD2g). pose proof (Hpos _ HQ2g).
      eapply gens_eq; [|eapply (gens_factor B s _ _ (gen_factor_rec fuel children R2 nl) R2 _ _ (fun env => sop_val (x env) R2)); [apply IH'; [exact HD2g|nia]|apply IH'; [exact HQ2g|nia]|]].
      + intros env. cbn beta. rewrite (division_val _ F Q2 D2 R2 Hdv2). by rewrite (andb_comm (sop_val _ Q2)).
      + destruct (decide (R2 = [])) as [->|Hne]; [done|]. apply IH'; [|nia].
        apply (good_sub F); [done|by eapply division_rem|done].
    - (* a common literal of the divisor *)
      apply bool_decide_eq_false in Ecff. destruct (bit_ex _ Ecff) as [n Hbn].
      assert (Hql : has_lit (common D2) (N.to_nat n) = true) by (unfold has_lit; by rewrite N2Nat.id).
      assert (Hi1 := HD2in d1 Hd1).
      assert (Hl1 : has_lit (N.lor d1 m) (N.to_nat n) = true) by (by eapply common_sub).
      apply (gens_lit_factor _ _ _ (N.to_nat n)); [done| |done| |done].
      + eapply within_lit; [exact HD2w|exact Hi1|done].
      + apply (occurs_two F _ (N.lor (N.lor d1 m) p1) (N.lor (N.lor d1 m) p2)).
        * by apply (division_in _ _ _ _ _ _ Hdv2). * by apply (division_in _ _ _ _ _ _ Hdv2).
        * intros E'. apply lor_cancel in E'; [done| |]; by apply (division_apart _ _ _ _ Hdv2).
        * by apply sub_lor_l. * by apply sub_lor_l.
  Qed.
End circuits.

(* ---------- from cubes ---------- *)
Lemma product_bits_go c is p l : N.testbit (fold_left (fun p i => if get_cmask c i then N.lor p (2 ^ N.of_nat (2 * i + Nat.b2n (get_cbit c i))) else p) is p) (N.of_nat l) = true
  <-> N.testbit p (N.of_nat l) = true \/ exists i, i ∈ is /\ get_cmask c i = true /\ l = 2 * i + Nat.b2n (get_cbit c i).
Proof.
  revert p. induction is as [|i is IH]; intros p; cbn [fold_left].
  - split; [by left|]. intros [?|(i & Hi & _)]; [done|]. by apply elem_of_nil in Hi.
  - rewrite IH. destruct (get_cmask c i) eqn:Em.
    + rewrite N.lor_spec, orb_true_iff, N.pow2_bits_eqb, N.eqb_eq. split.
      * intros [[?|E]|(i' & Hi & ?)]; [by left| |right; exists i'; split; [by right|done]].
        right. exists i. split; [left|]. split; [done|]. lia.
      * intros [?|(i' & Hi & Hm & Hl)]; [by left; left|]. apply elem_of_cons in Hi as [->|Hi]; [left; right; by rewrite Hl|].
        right. by exists i'.
    + split; intros [?|(i' & Hi & Hm & Hl)]; [by left|right; exists i'; split; [by right|done]|by left|].
      apply elem_of_cons in Hi as [->|Hi]; [congruence|]. right. by exists i'.
Qed.
Lemma product_bits n c l : has_lit (cube_to_product n c) l = true <->
  l / 2 < n /\ get_cmask c (l / 2) = true /\ get_cbit c (l / 2) = Nat.odd l.
Proof.
  unfold has_lit, cube_to_product. rewrite product_bits_go, N.bits_0.
  setoid_rewrite elem_of_seq. split.
  - intros [?|(i & Hi & Hm & ->)]; [done|].
    assert (E : (2 * i + Nat.b2n (get_cbit c i)) / 2 = i) by (destruct (get_cbit c i); cbn [Nat.b2n];
      rewrite Nat.mul_comm, Nat.div_add_l by lia; change (1 / 2) with 0; change (0 / 2) with 0; lia).
    rewrite E. split; [lia|]. split; [done|]. rewrite Nat.odd_add, Nat.odd_mul. by destruct (get_cbit c i).
  - intros (Hl & Hm & Hb). right. exists (l / 2). split; [lia|]. split; [done|]. rewrite Hb.
    pose proof (Nat.div2_odd l) as E. by rewrite Nat.div2_div in E.
Qed.
Lemma product_below n c : (cube_to_product n c < 2 ^ N.of_nat (2 * n))%N.
Proof.
  apply below_bits. intros l Hl. rewrite <- (N2Nat.id l) in Hl. apply product_bits in Hl as [Hl _].
  assert (N.to_nat l < 2 * n); [|lia]. destruct (decide (N.to_nat l < 2 * n)); [done|].
  assert (n <= N.to_nat l / 2) by (apply Nat.div_le_lower_bound; lia). lia.
Qed.
Lemma product_on n c y : n <= 31 -> cube_below n c -> prod_val y (cube_to_product n c) = true <-> cube_on c y.
Proof.
  intros Hn Hb. rewrite prod_val_spec by (eapply N.lt_trans; [apply product_below|]; apply N.pow_lt_mono_r; lia). split.
  - intros H i Hi. assert (Hin : i < n) by (by apply Hb). specialize (H (2 * i + Nat.b2n (get_cbit c i))).
    assert (E : (2 * i + Nat.b2n (get_cbit c i)) / 2 = i) by (destruct (get_cbit c i); cbn [Nat.b2n];
      rewrite Nat.mul_comm, Nat.div_add_l by lia; change (1 / 2) with 0; change (0 / 2) with 0; lia).
    assert (Eo : Nat.odd (2 * i + Nat.b2n (get_cbit c i)) = get_cbit c i) by (rewrite Nat.odd_add, Nat.odd_mul; by destruct (get_cbit c i)).
    rewrite product_bits, E, Eo in H. unfold lit_val in H. rewrite E, Eo in H. specialize (H (conj Hin (conj Hi eq_refl))).
    destruct (get_cbit c i); [done|]. by destruct (y i).
  - intros H l Hl. apply product_bits in Hl as (Hl & Hm & Hbit). unfold lit_val. rewrite (H _ Hm), Hbit. by destruct (Nat.odd l).
Qed.

Lemma cover_good t cs : tt_wf t -> nv t <= 31 -> tt_is_const0 t = false -> tt_is_const0 (tt_not t) = false -> isop t = Some cs ->
  good (2 * nv t) (cubes_to_sop cs (nv t)) /\ forall y, sop_val y (cubes_to_sop cs (nv t)) = tt_eval t y.
Proof.
  intros Ht Hn H0 H1 E. destruct (isop_spec t Ht) as (cs' & E' & Hcov & Hbel & Hirr & _). rewrite E in E'. injection E' as <-.
  assert (Hval : forall y, sop_val y (cubes_to_sop cs (nv t)) = tt_eval t y).
  { intros y. apply bool_iff. rewrite Hcov, sop_val_true. unfold cubes_to_sop, covered. split.
    - intros (p & Hp & Hv). apply elem_of_list_In, in_map_iff in Hp as (c & <- & Hc). apply elem_of_list_In in Hc. exists c. split; [done|].
      eapply product_on; [done| |done]. by apply (proj1 (Forall_forall _ _) Hbel).
    - intros (c & Hc & Hv). exists (cube_to_product (nv t) c). split; [apply elem_of_list_In, in_map; by apply elem_of_list_In|].
      apply product_on; [done| |done]. by apply (proj1 (Forall_forall _ _) Hbel). }
  split; [|done]. split; [|split; [|split]].
  - apply Forall_forall. intros p Hp. apply elem_of_list_In, in_map_iff in Hp as (c & <- & _). apply product_below.
  - apply no_containment_anti. intros i j c d Hi Hj Hs. rewrite N.land_comm, sub_land in Hs. unfold cubes_to_sop in *.
    change (map ?f cs) with (f <$> cs) in Hi, Hj. rewrite list_lookup_fmap in Hi, Hj.
    destruct (cs !! i) as [ci|] eqn:Ei; [|done]. destruct (cs !! j) as [cj|] eqn:Ej; [|done].
    injection Hi as <-. injection Hj as <-. destruct (Hirr j cj Ej) as (y & _ & Hy & Honly). apply (Honly i ci Ei).
    assert (Hbi : cube_below (nv t) ci) by (by eapply (Forall_lookup_1 (cube_below (nv t)))).
    assert (Hbj : cube_below (nv t) cj) by (by eapply (Forall_lookup_1 (cube_below (nv t)))).
    apply (product_on (nv t) _ y Hn Hbj) in Hy. apply (product_on (nv t) _ y Hn Hbi).
    rewrite prod_val_spec in Hy |- * by (eapply N.lt_trans; [apply product_below|]; apply N.pow_lt_mono_r; lia).
    intros l Hl. apply Hy. by apply Hs.
  - intros En. assert (Hc : tt_is_const0 t = true); [|congruence]. apply is_const0_spec; [done|]. intros y. rewrite <- Hval, En. done.
  - intros Hz. assert (Hc : tt_is_const0 (tt_not t) = true); [|congruence]. apply is_const0_spec; [by apply not_wf|]. intros y.
    rewrite eval_not by done. rewrite <- Hval. apply negb_false_iff, sop_val_true. exists 0%N. split; [done|].
    apply prod_val_spec; [done|]. intros l Hl. unfold has_lit in Hl. by rewrite N.bits_0 in Hl.
Qed.

Lemma sop_factoring_good (B : builder) s t leaves : b_good B s -> tt_wf t -> nv t <= 31 -> nv t <= length leaves -> Forall (valid s) leaves ->
  may (b_fail B) (sop_factoring t leaves) s (bmakes B s (fun env => tt_eval t (cval B s leaves env))).
Proof.
  intros Hr Ht Hn Hl Hv. unfold sop_factoring. rewrite decide_True by done.
  destruct (tt_is_const0 t) eqn:E0.
  { apply may_ret. split; [done|]. split; [apply ext_refl|]. destruct (b_const B s false Hr) as [Hc1 Hc2]. split; [exact Hc1|].
    intros env. rewrite Hc2. symmetry. by apply is_const0_spec. }
  destruct (tt_is_const0 (tt_not t)) eqn:E1.
  { apply may_ret. split; [done|]. split; [apply ext_refl|]. destruct (b_const B s true Hr) as [Hc1 Hc2]. split; [exact Hc1|].
    intros env. rewrite Hc2. symmetry.
    assert (E : tt_eval (tt_not t) (cval B s leaves env) = false) by (apply is_const0_spec; [by apply not_wf|done]).
    rewrite eval_not in E by done. by apply negb_false_iff in E. }
  destruct (isop_spec t Ht) as (cs & Ec & _). destruct (isop_spec (tt_not t) (not_wf _ Ht)) as (ns & En & _).
  assert (Hnn : tt_not (tt_not t) = t). { unfold tt_not. cbn. destruct t as [n b]. cbn. f_equal. rewrite map_map. rewrite <- (map_id b) at 2. apply map_ext. by intros []. }
  destruct (cover_good t cs Ht Hn E0 E1 Ec) as [Hg Hval].
  destruct (cover_good (tt_not t) ns (not_wf _ Ht)) as [Hgn Hvaln]; [done|done|by rewrite Hnn|done|].
  assert (Hget : exists ds neg, get_isop t = Some (ds, neg) /\ good (2 * nv t) (cubes_to_sop ds (nv t)) /\
    forall y, sop_val y (cubes_to_sop ds (nv t)) = xorb (tt_eval t y) neg).
  { assert (Hvn : forall y, sop_val y (cubes_to_sop ns (nv t)) = xorb (tt_eval t y) true).
    { intros y. change (nv t) with (nv (tt_not t)). rewrite Hvaln, eval_not by done. by rewrite xorb_true_r. }
    unfold get_isop. rewrite Ec, En. cbn [mbind option_bind]. repeat case_decide.
    - exists ns, true. done. - exists ns, true. done.
    - exists cs, false. split; [done|]. split; [done|]. intros y. rewrite Hval. by rewrite xorb_false_r. }
  destruct Hget as (ds & neg & Eg & Hgg & Hgv). apply may_bnd. eapply may_lift; [exact Eg|]. cbn beta iota zeta.
  assert (Hgens : gens B s (gen_factor_rec (S (sop_count_lit (cubes_to_sop ds (nv t)))) leaves (cubes_to_sop ds (nv t)) (2 * nv t))
    (fun env => sop_val (cval B s leaves env) (cubes_to_sop ds (nv t)))).
  { apply gens_gen_factor; [done|done|lia|lia|done|]. rewrite count_lits; [lia|]. apply unmarked_small. refine (within_unmarked leaves (2 * nv t) _ _ _ _); [lia|lia|by destruct Hgg]. }
  apply may_bnd. eapply may_mono; [apply Hgens; [apply ext_refl|done]|]. intros f s' (Hr' & He' & Hvf & Hf).
  apply may_ret. split; [done|]. split; [done|]. split; [by destruct neg|]. intros env.
  assert (E : b_val B s' env (if neg then snot f else f) = xorb (b_val B s' env f) neg).
  { destruct neg; [rewrite b_not; by rewrite xorb_true_r|by rewrite xorb_false_r]. }
  rewrite E, Hf, Hgv. by destruct neg, (tt_eval t (cval B s leaves env)).
Qed.

(* networks built through the API: never fails *)
Lemma reach_const s c : reachable s -> valid s (get_constant c) /\ forall env, sval (ev s env) (get_constant c) = c.
Proof. intros W%reachable_wf. split; [by apply valid_const|]. intros env. by apply sval_const. Qed.
Lemma reach_ext s s' env f : ext s s' -> valid s f -> sval (ev s' env) f = sval (ev s env) f.
Proof. apply ext_sval. Qed.
Definition reach_builder : builder :=
  {| b_env := nat -> bool; b_fail := False; b_good := reachable; b_val := fun s env f => sval (ev s env) f;
     b_not := fun s env f => sval_snot (ev s env) f; b_const := reach_const;
     b_ext := fun s s' env f _ _ He Hv => reach_ext s s' env f He Hv; b_and := create_and_r |}.
Lemma sop_factoring_spec s t leaves : reachable s -> tt_wf t -> nv t <= 31 -> nv t <= length leaves -> Forall (valid s) leaves ->
  wp (sop_factoring t leaves) s (makes s (fun env => tt_eval t (cval reach_builder s leaves env))).
Proof. intros Hr Ht Hn Hl Hv. exact (sop_factoring_good reach_builder s t leaves Hr Ht Hn Hl Hv). Qed.
