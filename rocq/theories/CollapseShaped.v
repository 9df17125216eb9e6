(* Collapsing a mapping computes what its cells compute: the proofs of
   CollapseProofs.v with the values of the cells in place of those of the network. *)
From Verif Require Import Base Aig AigSem AigHash AigProofs AigApi AigReach Topo TopoProofs Clean NetProofs CleanProofs Depth DepthProofs
  Tt TtProofs TtCache TtCacheProofs Klut KlutSem KlutProofs Isop IsopProofs Cnf CnfProofs Mapping MappingProofs CollapseProofs ConvertProofs Debugger DebuggerProofs.

Section shaped.
Context (m : mview).
(* ---- values carried by nodes of the LUT network ---- *)
Definition carries (s : aig) (d : klut) (x : nat) (F : (nat -> bool) -> bool) : Prop :=
  x < ksize d /\ forall env v w, mval s m env v -> kvaluation d env w -> w x = F v.
Lemma carries_grow s d d' x F : kreachable d -> kgrows d d' -> carries s d x F -> carries s d' x F.
Proof using.
  intros R G [Hx H]. split; [pose proof (kgrows_size _ _ G); lia|]. intros env v w V W.
  apply (H env); [done|]. eapply kvaluation_shrink; [by apply kreachable_wf|done|done].
Qed.
Lemma carries_ext s d x F G : (forall v, F v = G v) -> carries s d x F -> carries s d x G.
Proof using. intros E [Hx H]. split; [done|]. intros env v w V W. rewrite <- E. by eapply H. Qed.
Lemma carries_build s d d' x F G : kreachable d -> kbuilds d F x d' ->
  (forall env v w, mval s m env v -> kvaluation d env w -> kvaluation d' env w -> F w = G v) -> carries s d' x G.
Proof using.
  intros R (_ & Gr & _ & _ & _ & _ & Hx & HF) H. split; [done|]. intros env v w V W. rewrite (HF env w W).
  apply (H env); [done| |done]. eapply kvaluation_shrink; [by apply kreachable_wf|done|done].
Qed.

Definition isneg (d : driver) : bool := match d with DNeg => true | _ => false end.
Record done_at (s : aig) (dt : list driver) (t : sigs) (d : klut) (n : nat) : Prop := {
  da_sig : exists x q, t.1 !! n = Some x /\ dt !! n = Some q /\ carries s d x (fun v => xorb (isneg q) (v n));
  da_opp : dt !! n = Some DMixed -> exists y, t.2 !! n = Some y /\ carries s d y (fun v => negb (v n))
}.
Lemma done_grow s dt t d d' n : kreachable d -> kgrows d d' -> done_at s dt t d n -> done_at s dt t d' n.
Proof using.
  intros R G [(x & q & Hx & Hq & Hc) Ho]. split.
  - exists x, q. split; [done|]. split; [done|]. by eapply carries_grow.
  - intros Hm. destruct (Ho Hm) as (y & Hy & Hc'). exists y. split; [done|]. by eapply carries_grow.
Qed.
Lemma done_upd s dt t t' d n : t'.1 !! n = t.1 !! n -> t'.2 !! n = t.2 !! n -> done_at s dt t d n -> done_at s dt t' d n.
Proof using. intros E1 E2 [H1 H2]. split; rewrite ?E1, ?E2; done. Qed.

(* ---- driver types ---- *)
#[local] Instance driver_dec : EqDecision driver.
Proof using. solve_decision. Defined.
Lemma drivers_spec s : network s -> alive s -> npi s = length (ins s) -> shaped s m ->
  exists dt, drivers s m = Some dt /\ length dt = size s /\
    (forall f, f ∈ pos s -> exists q, dt !! sidx f = Some q /\ po_driver f q) /\
    (forall n l c, root s m n -> cell_fanin m n = Some l -> c ∈ l -> dt !! c <> Some DNeg).
Proof using.
  intros W Ha Hc [Hm Hpo Hcell]. unfold drivers.
  destruct (fold_opt_spec driver_po (fun p dt => length dt = size s /\ forall f, f ∈ p -> exists q, dt !! sidx f = Some q /\ po_driver f q)
    (pos s) (repeat DNone (size s))) as (dt0 & -> & L0 & H0).
  - split; [apply repeat_length|]. intros f Hf. by apply not_elem_of_nil in Hf.
  - intros p f q dt E [Hl Hp].
    assert (Hf : sidx f < size s).
    { apply (provided_lt s m _ W), Hpo. rewrite E. apply elem_of_app. right. apply elem_of_list_here. }
    unfold driver_po. destruct (lookup_lt_is_Some_2 dt (sidx f)) as [d Hd]; [lia|]. rewrite Hd. cbn [mbind option_bind].
    eexists. split; [reflexivity|]. split; [by rewrite insert_length|].
    intros g Hg. destruct (decide (sidx g = sidx f)) as [Eg|Hgf].
    + rewrite Eg, list_lookup_insert by lia. eexists. split; [reflexivity|].
      apply elem_of_app in Hg as [Hg|Hg%elem_of_list_singleton].
      * destruct (Hp g Hg) as (q' & Hq' & Hpq). rewrite Eg, Hd in Hq'. injection Hq' as <-.
        destruct d; cbn in *; try done; destruct (scompl f); done.
      * subst g. destruct d, (scompl f) eqn:E1; cbn; done.
    + rewrite list_lookup_insert_ne by done. apply elem_of_app in Hg as [Hg|Hg%elem_of_list_singleton]; [by apply Hp|by subst g].
  - cbn [mbind option_bind].
    assert (L : forall l dt, Forall (fun c => c < size s) l -> length dt = size s ->
      exists dt', fold_opt driver_leaf dt l = Some dt' /\ length dt' = size s /\
        (forall n, dt' !! n = dt !! n \/ (dt' !! n = Some DMixed /\ dt !! n = Some DNeg)) /\ forall c, c ∈ l -> dt' !! c <> Some DNeg).
    { intros l dt Hl Hd.
      destruct (fold_opt_spec driver_leaf (fun p dt' => length dt' = size s /\
        (forall n, dt' !! n = dt !! n \/ (dt' !! n = Some DMixed /\ dt !! n = Some DNeg)) /\ forall c, c ∈ p -> dt' !! c <> Some DNeg) l dt) as (dt' & E & H).
      - split; [done|]. split; [auto|]. intros c Hc'. by apply not_elem_of_nil in Hc'.
      - intros p c q dt' E (H1 & H2 & H3). rewrite Forall_forall in Hl.
        assert (Hcl : c < size s) by (apply Hl; rewrite E; apply elem_of_app; right; apply elem_of_list_here).
        unfold driver_leaf. destruct (lookup_lt_is_Some_2 dt' c) as [d Hd']; [lia|]. rewrite Hd'. cbn [mbind option_bind].
        eexists. split; [reflexivity|].
        destruct (decide (d = DNeg)) as [->|Hdn].
        + split; [by rewrite insert_length|]. split.
          * intros n. destruct (decide (n = c)) as [->|Hnc].
            -- right. rewrite list_lookup_insert by lia. split; [done|]. destruct (H2 c) as [H2c|[H2c _]]; congruence.
            -- rewrite list_lookup_insert_ne by done. apply H2.
          * intros c' [Hc'|Hc'%elem_of_list_singleton]%elem_of_app.
            -- destruct (decide (c' = c)) as [->|Hcc]; [rewrite list_lookup_insert by lia; done|].
               rewrite list_lookup_insert_ne by done. by apply H3.
            -- subst c'. by rewrite list_lookup_insert by lia.
        + replace (match d with DNeg => <[c := DMixed]> dt' | _ => dt' end) with dt' by (by destruct d).
          split; [done|]. split; [done|]. intros c' [Hc'|Hc'%elem_of_list_singleton]%elem_of_app; [by apply H3|].
          subst c'. rewrite Hd'. congruence.
      - exists dt'. destruct H as (? & ? & ?). done. }
    destruct (fold_opt_spec (driver_node s m) (fun p dt => length dt = size s /\
      (forall f, f ∈ pos s -> exists q, dt !! sidx f = Some q /\ po_driver f q) /\
      (forall n l c, n ∈ p -> root s m n -> cell_fanin m n = Some l -> c ∈ l -> dt !! c <> Some DNeg)) (seq 0 (size s)) dt0) as (dt & -> & L1 & H1 & H2).
    + split; [done|]. split; [done|]. intros n l c Hn. by apply not_elem_of_nil in Hn.
    + intros p n q dt E (Hl & Hp & Hr).
      assert (Hn : n < size s).
      { assert (n ∈ seq 0 (size s)) as [_ ?]%elem_of_seq; [|lia]. rewrite E. apply elem_of_app. right. apply elem_of_list_here. }
      unfold driver_node. destruct (is_dead s n) as [dd|] eqn:Ed.
      2:{ unfold is_dead in Ed. destruct (lookup_lt_is_Some_2 (fo s) n) as [h Hh]; [by rewrite (net_fo _ W)|]. by rewrite Hh in Ed. }
      cbn [mbind option_bind]. destruct dd.
      { eexists. split; [reflexivity|]. split; [done|]. split; [done|]. intros n' l c [Hn'|Hn'%elem_of_list_singleton]%elem_of_app R; [by eapply Hr|].
        subst n'. destruct R as [R _]. rewrite (Ha n R) in Ed. done. }
      destruct (skipped_spec s m n W Hc Hn Hm) as (b & -> & Hb). cbn [mbind option_bind]. destruct b.
      { eexists. split; [reflexivity|]. split; [done|]. split; [done|]. intros n' l c [Hn'|Hn'%elem_of_list_singleton]%elem_of_app R; [by eapply Hr|].
        subst n'. apply Hb in R. done. }
      destruct (proj1 Hb eq_refl) as [Hg Hroot]. destruct (Hcell n (conj Hg Hroot)) as (l & f & El0 & _ & _ & _ & Hlp). rewrite El0. cbn [mbind option_bind].
      destruct (L l dt) as (dt' & -> & L1 & L2 & L3); [|done|].
      { apply Forall_forall. intros c Hcl. apply (provided_lt s m c W). by apply Hlp. }
      eexists. split; [reflexivity|]. split; [done|]. split.
      * intros g Hg'. destruct (Hp g Hg') as (q' & Hq' & Hpq). destruct (L2 (sidx g)) as [E2|[E2 _]].
        -- exists q'. by rewrite E2.
        -- exists DMixed. done.
      * intros n' l' c [Hn'|Hn'%elem_of_list_singleton]%elem_of_app R El Hcl.
        -- destruct (L2 c) as [E2|[E2 _]]; rewrite E2; [|done]. by eapply Hr.
        -- subst n'. apply L3. congruence.
    + exists dt. split; [done|]. split; [done|]. split; [done|]. intros n l c R El Hcl.
      assert (Hn : n < size s) by (destruct R as [(a & b & E & _) _]; by apply lookup_lt_Some in E).
      apply (H2 n l c); try done. apply elem_of_seq. lia.
Qed.

(* ---- the collapse ---- *)
Record cinv (s : aig) (dt : list driver) (k : nat) (t : sigs) (d : klut) (D : nat -> Prop) : Prop := {
  ci_reach : kreachable d;
  ci_len : klen d <= 10 + 2 * k;
  ci_t1 : length t.1 = size s;
  ci_t2 : length t.2 = size s;
  ci_done : forall n, D n -> done_at s dt t d n
}.

Lemma valuation_val s env v n k : mval s m env v -> ins s !! k = Some n -> v n = env k.
Proof using. intros V. apply (mv_input _ _ _ _ V). Qed.

Lemma done_mono s dt t t' d d' n k : kreachable d -> kgrows d d' -> n <> k ->
  (exists x, t'.1 = <[k := x]> t.1) -> (t'.2 = t.2 \/ exists y, t'.2 = <[k := y]> t.2) ->
  done_at s dt t d n -> done_at s dt t' d' n.
Proof using.
  intros R G Hnk [x E1] E2 H. apply (done_grow _ _ _ d); [done|done|]. apply (done_upd _ _ t); [| |done].
  - rewrite E1. by rewrite list_lookup_insert_ne.
  - destruct E2 as [->|[y ->]]; [done|]. by rewrite list_lookup_insert_ne.
Qed.

Lemma collapse_pi_spec s dt p n q t d : network s -> length dt = size s -> ins s = p ++ n :: q -> n <> 0 ->
  length (kins d) = length p /\ knpi d = length p /\ kouts d = [] /\ knpo d = 0 /\ cinv s dt 0 t d (fun k => k = 0 \/ k ∈ p) ->
  wp (collapse_pi dt t n) d (fun t' d' => length (kins d') = length (p ++ [n]) /\ knpi d' = length (p ++ [n]) /\ kouts d' = [] /\ knpo d' = 0 /\
    cinv s dt 0 t' d' (fun k => k = 0 \/ k ∈ p ++ [n])).
Proof using.
  intros W Hdt Hi Hn0 (Hk & Hp & Ho & Hpo & [R L T1 T2 D]).
  assert (Hn : n < size s).
  { pose proof (net_ins_valid s W) as H. rewrite Forall_forall in H. apply H. rewrite Hi. apply elem_of_app. right. apply elem_of_list_here. }
  assert (Hlk : ins s !! length p = Some n) by (rewrite Hi, lookup_app_r, Nat.sub_diag; done).
  pose proof (net_ins_nodup s W) as Hnd. apply NoDup_cons in Hnd as [_ Hnd]. rewrite Hi in Hnd. apply NoDup_app in Hnd as (_ & Hnp & _).
  assert (Hnin : forall k, k ∈ p -> k <> n) by (intros k Hkp ->; apply (Hnp n Hkp), elem_of_list_here).
  unfold collapse_pi. destruct (lookup_lt_is_Some_2 dt n) as [dr Hdr]; [lia|]. apply wp_bnd, (wp_lift _ dr); [done|].
  apply wp_bnd. eapply wp_mono; [apply kcreate_pi_r; [done|unfold kroom, klen in *; lia]|].
  intros f d1 (R1 & Ef & S1 & G1 & I1 & O1 & P1 & Po1 & L1).
  assert (C1 : carries s d1 f (fun v => v n)).
  { split; [lia|]. intros env v w V Wk. rewrite (valuation_val _ _ _ _ _ V Hlk).
    apply (kv_in _ _ _ Wk). rewrite I1, lookup_app_r, Hk, Nat.sub_diag by lia. by subst f. }
  assert (Hnot : wp (kcreate_not f) d1 (fun g d2 => kreachable d2 /\ kgrows d1 d2 /\ kins d2 = kins d1 /\ kouts d2 = kouts d1 /\
    knpi d2 = knpi d1 /\ knpo d2 = knpo d1 /\ klen d2 = klen d1 /\ carries s d2 g (fun v => negb (v n)))).
  { eapply wp_mono; [apply kcreate_not_r; [done|unfold kroom, klen in *; lia|lia]|].
    intros g d2 (R2 & B & L2). pose proof B as (_ & G2 & I2 & O2 & P2 & Po2 & _). do 7 (split; [done|]).
    eapply (carries_build s d1); [done|exact B|]. cbn. intros env v w V W1 _. by rewrite (proj2 C1 env v w V W1). }
  assert (Hlen : length (p ++ [n]) = S (length p)) by (rewrite app_length; cbn; lia).
  assert (Hold : forall t' d', kgrows d d' -> (exists x, t'.1 = <[n := x]> t.1) -> (t'.2 = t.2 \/ exists y, t'.2 = <[n := y]> t.2) ->
    forall k, k = 0 \/ k ∈ p -> done_at s dt t' d' k).
  { intros t' d' G H1 H2 k Hkk. apply (done_mono s dt t t' d d' k n); try done; [|by apply D].
    destruct Hkk as [->|Hkk]; [congruence|by apply Hnin]. }
  assert (Hspl : forall k, k = 0 \/ k ∈ p ++ [n] -> (k = 0 \/ k ∈ p) \/ k = n).
  { intros k [->|[Hkk|Hkk%elem_of_list_singleton]%elem_of_app]; auto. }
  destruct dr.
  - apply wp_ret. rewrite I1, app_length, Hk, P1, Hp, O1, Ho, Po1, Hpo, Hlen. cbn [length]. do 4 (split; [lia||done|]).
    split; cbn [fst snd]; rewrite ?insert_length; try done; [lia|]. intros k [Hkk| ->]%Hspl; [eapply Hold; eauto|].
    split; cbn [fst snd]; [|by rewrite Hdr]. exists f, DNone. rewrite list_lookup_insert by lia. split; [done|]. split; [done|]. eapply carries_ext; [|exact C1]. intros v. cbn. by destruct (v n).
  - apply wp_ret. rewrite I1, app_length, Hk, P1, Hp, O1, Ho, Po1, Hpo, Hlen. cbn [length]. do 4 (split; [lia||done|]).
    split; cbn [fst snd]; rewrite ?insert_length; try done; [lia|]. intros k [Hkk| ->]%Hspl; [eapply Hold; eauto|].
    split; cbn [fst snd]; [|by rewrite Hdr]. exists f, DPos. rewrite list_lookup_insert by lia. split; [done|]. split; [done|]. eapply carries_ext; [|exact C1]. intros v. cbn. by destruct (v n).
  - apply wp_bnd. eapply wp_mono; [exact Hnot|]. intros g d2 (R2 & G2 & I2 & O2 & P2 & Po2 & L2 & C2). apply wp_ret.
    rewrite I2, I1, app_length, Hk, P2, P1, Hp, O2, O1, Ho, Po2, Po1, Hpo, Hlen. cbn [length]. do 4 (split; [lia||done|]).
    split; cbn [fst snd]; rewrite ?insert_length; try done; [lia|]. intros k [Hkk| ->]%Hspl; [eapply Hold; eauto using kgrows_trans|].
    split; cbn [fst snd]; [|by rewrite Hdr]. exists g, DNeg. rewrite list_lookup_insert by lia. split; [done|]. split; [done|]. eapply carries_ext; [|exact C2]. intros v. cbn. by destruct (v n).
  - apply wp_bnd. eapply wp_mono; [exact Hnot|]. intros g d2 (R2 & G2 & I2 & O2 & P2 & Po2 & L2 & C2). apply wp_ret.
    rewrite I2, I1, app_length, Hk, P2, P1, Hp, O2, O1, Ho, Po2, Po1, Hpo, Hlen. cbn [length]. do 4 (split; [lia||done|]).
    split; cbn [fst snd]; rewrite ?insert_length; try done; [lia|]. intros k [Hkk| ->]%Hspl; [eapply Hold; eauto using kgrows_trans|].
    split; cbn [fst snd].
    + exists f, DMixed. rewrite list_lookup_insert by lia. split; [done|]. split; [done|]. apply (carries_grow s d1); [done|done|].
      eapply carries_ext; [|exact C1]. intros v. cbn. by destruct (v n).
    + intros _. exists g. rewrite list_lookup_insert by lia. done.
Qed.

Lemma node_carries s d d' l f cs x : kreachable d -> Forall2 (fun c y => carries s d y (fun v => v c)) l cs ->
  kbuilds d (fun v => tt_eval f (fun k => match cs !! k with Some c => v c | None => false end)) x d' ->
  carries s d' x (fun v => tt_eval f (fun k => match l !! k with Some c => v c | None => false end)).
Proof using.
  intros R HF B. eapply carries_build; [done|exact B|]. cbn. intros env v w V Wd _.
  apply eval_ext. intros k Hk. destruct (l !! k) as [c|] eqn:El.
  - destruct (Forall2_lookup_l _ _ _ _ _ HF El) as (y & Ey & Hc). rewrite Ey. by apply (proj2 Hc env).
  - rewrite (proj2 (lookup_ge_None cs k)); [done|]. rewrite <- (Forall2_length _ _ _ HF). by apply lookup_ge_None.
Qed.

Lemma collapse_cell_spec s dt k p n q order t d :
  network s -> alive s -> npi s = length (ins s) -> shaped s m -> length dt = size s ->
  (forall n l c, root s m n -> cell_fanin m n = Some l -> c ∈ l -> dt !! c <> Some DNeg) ->
  NoDup order -> (forall x, x ∈ order -> x < size s) ->
  (forall p' n' q', order = p' ++ n' :: q' -> root s m n' -> forall c, provided s m c -> c < n' -> c = 0 \/ c ∈ ins s \/ c ∈ p') ->
  order = p ++ n :: q -> (N.of_nat (12 + 2 * k) <= 2 ^ 31)%N ->
  cinv s dt k t d (fun c => c = 0 \/ c ∈ ins s \/ (root s m c /\ c ∈ p)) ->
  wp (collapse_cell s m dt t n) d (fun t' d' => kins d' = kins d /\ kouts d' = kouts d /\ knpi d' = knpi d /\ knpo d' = knpo d /\
    cinv s dt (S k) t' d' (fun c => c = 0 \/ c ∈ ins s \/ (root s m c /\ c ∈ p ++ [n]))).
Proof using.
  intros W Ha Hc [Hm Hpo Hcell] Hdt Hleaf Hnd Hlt Hbef Eo Hk [R L T1 T2 D].
  assert (Hn : n < size s) by (apply Hlt; rewrite Eo; apply elem_of_app; right; apply elem_of_list_here).
  unfold collapse_cell. destruct (skipped_spec s m n W Hc Hn Hm) as (b & Eb & Hb). apply wp_bnd, (wp_lift _ b); [done|].
  destruct b.
  { apply wp_ret. do 4 (split; [done|]). split; try done; [lia|]. intros c Hc'. apply D. destruct Hc' as [?|[?|[Hr [?|Hcn%elem_of_list_singleton]%elem_of_app]]]; [by auto..|].
    subst c. apply Hb in Hr. done. }
  pose proof (proj1 Hb eq_refl) as Hr. destruct (Hcell n Hr) as (l & f & El & Ef & Hf & Hnv & Hlp).
  apply wp_bnd, (wp_lift _ l); [done|].
  assert (HL : forall c, c ∈ l -> exists y, t.1 !! c = Some y /\ carries s d y (fun v => v c)).
  { intros c Hcl. destruct (Hlp c Hcl) as [Hpr Hb'].
    destruct (D c) as [(x & qd & Hx & Hq & Hcx) _].
    { destruct (Hbef p n q Eo Hr c Hpr Hb') as [?|[?|Hcp]]; [by auto..|]. destruct Hpr as [?|[?|Hrc]]; auto. }
    exists x. split; [done|]. eapply carries_ext; [|exact Hcx]. cbn. intros v.
    assert (qd <> DNeg). { intros ->. by eapply Hleaf. } destruct qd; cbn; try done; by destruct (v c). }
  destruct (opt_map_spec (fun c => t.1 !! c) l) as (cs & Ecs & HF).
  { intros c Hcl. destruct (HL c Hcl) as (y & -> & _). eauto. }
  apply wp_bnd, (wp_lift _ cs); [done|].
  assert (HF' : Forall2 (fun c y => carries s d y (fun v => v c)) l cs).
  { apply Forall2_same_length_lookup_2; [by eapply Forall2_length|]. intros i c y Hi Hy.
    destruct (HL c) as (y' & Hy' & Hcy); [by eapply elem_of_list_lookup_2|].
    pose proof (Forall2_lookup_lr _ _ _ _ _ _ HF Hi Hy) as Hyy. cbn in Hyy. assert (y' = y) as -> by congruence. done. }
  assert (Hcs : Forall (fun c => c < ksize d) cs).
  { apply Forall_forall. intros y [i Hi]%elem_of_list_lookup. destruct (Forall2_lookup_r _ _ _ _ _ HF' Hi) as (c & _ & Hcy). apply Hcy. }
  assert (Hlen : length cs = length l) by (symmetry; by eapply Forall2_length).
  destruct (lookup_lt_is_Some_2 dt n) as [dr Hdr]; [lia|]. apply wp_bnd, (wp_lift _ dr); [done|].
  apply wp_bnd, (wp_lift _ f); [done|].
  assert (Hnp : n ∉ p /\ n <> 0 /\ n ∉ ins s).
  { split; [|split].
    - rewrite Eo in Hnd. apply NoDup_app in Hnd as (_ & H & _). intros Hp. by apply (H n Hp), elem_of_list_here.
    - destruct Hr as [(a & b & _ & ? & _) _]. done.
    - intros [j Hj]%elem_of_list_lookup. destruct (net_in _ W j n Hj) as [_ E]. destruct Hr as [(a & b & E' & _ & Hab) _].
      rewrite E in E'. injection E' as -> ->. done. }
  destruct Hnp as (Hnp & Hn0 & Hni).
  assert (Hold : forall t' d', kgrows d d' -> (exists x, t'.1 = <[n := x]> t.1) -> (t'.2 = t.2 \/ exists y, t'.2 = <[n := y]> t.2) ->
    forall c, c = 0 \/ c ∈ ins s \/ (root s m c /\ c ∈ p) -> done_at s dt t' d' c).
  { intros t' d' G H1 H2 c Hcc. apply (done_mono s dt t t' d d' c n); try done; [|by apply D]. intros ->. naive_solver. }
  assert (Hspl : forall c, c = 0 \/ c ∈ ins s \/ (root s m c /\ c ∈ p ++ [n]) -> (c = 0 \/ c ∈ ins s \/ (root s m c /\ c ∈ p)) \/ c = n).
  { intros c [?|[?|[? [Hkk|Hkk%elem_of_list_singleton]%elem_of_app]]]; auto. }
  assert (Hpos : wp (kcreate_node cs f) d (fun x d' => kreachable d' /\ kgrows d d' /\ kins d' = kins d /\ kouts d' = kouts d /\ knpi d' = knpi d /\ knpo d' = knpo d /\
     klen d' <= S (klen d) /\ carries s d' x (fun v => v n))).
  { eapply wp_mono; [apply kcreate_node_r; [done|unfold kroom, klen in *; lia|done|done|by rewrite Hlen]|].
    intros x d' (R' & B & L'). pose proof B as (_ & G & I' & O' & P' & Po' & _). do 7 (split; [done|]).
    pose proof (node_carries s d d' l f cs x R HF' B) as [Hx HV]. split; [done|]. intros env v w V Wd.
    rewrite (HV env v w V Wd). symmetry. by apply (mv_cell _ _ _ _ V). }
  assert (Hneg : forall d1, kreachable d1 -> kgrows d d1 -> klen d1 <= S (klen d) ->
    wp (kcreate_node cs (tt_not f)) d1 (fun x d' => kreachable d' /\ kgrows d1 d' /\ kins d' = kins d1 /\ kouts d' = kouts d1 /\ knpi d' = knpi d1 /\ knpo d' = knpo d1 /\
     klen d' <= S (klen d1) /\ carries s d' x (fun v => negb (v n)))).
  { intros d1 R1 G1 L1. eapply wp_mono; [apply kcreate_node_r; [done|unfold kroom, klen in *; lia| |by apply not_wf|by rewrite Hlen]|].
    { eapply Forall_impl; [exact Hcs|]. cbn. intros. pose proof (kgrows_size _ _ G1). lia. }
    intros x d' (R' & B & L'). pose proof B as (_ & G & I' & O' & P' & Po' & _). do 7 (split; [done|]).
    assert (HF1 : Forall2 (fun c y => carries s d1 y (fun v => v c)) l cs).
    { eapply Forall2_impl; [exact HF'|]. intros c y Hcy. exact (carries_grow s d d1 y _ R G1 Hcy). }
    pose proof (node_carries s d1 d' l (tt_not f) cs x R1 HF1 B) as [Hx HV]. split; [done|]. intros env v w V Wd.
    rewrite (HV env v w V Wd), eval_not by done. f_equal. symmetry. by apply (mv_cell _ _ _ _ V). }
  destruct dr.
  - apply wp_bnd. eapply wp_mono; [exact Hpos|]. intros x d1 (R1 & G1 & I1 & O1 & P1 & Po1 & L1 & C1). apply wp_ret. do 4 (split; [done|]).
    split; cbn [fst snd]; rewrite ?insert_length; try done; [lia|]. intros c [Hcc| ->]%Hspl; [eapply Hold; eauto|].
    split; cbn [fst snd]; [|by rewrite Hdr]. exists x, DNone. rewrite list_lookup_insert by lia. split; [done|]. split; [done|]. eapply carries_ext; [|exact C1]. intros v. cbn. by destruct (v n).
  - apply wp_bnd. eapply wp_mono; [exact Hpos|]. intros x d1 (R1 & G1 & I1 & O1 & P1 & Po1 & L1 & C1). apply wp_ret. do 4 (split; [done|]).
    split; cbn [fst snd]; rewrite ?insert_length; try done; [lia|]. intros c [Hcc| ->]%Hspl; [eapply Hold; eauto|].
    split; cbn [fst snd]; [|by rewrite Hdr]. exists x, DPos. rewrite list_lookup_insert by lia. split; [done|]. split; [done|]. eapply carries_ext; [|exact C1]. intros v. cbn. by destruct (v n).
  - apply wp_bnd. eapply wp_mono; [apply (Hneg d R (kgrows_refl d)); lia|]. intros x d1 (R1 & G1 & I1 & O1 & P1 & Po1 & L1 & C1). apply wp_ret. do 4 (split; [done|]).
    split; cbn [fst snd]; rewrite ?insert_length; try done; [lia|]. intros c [Hcc| ->]%Hspl; [eapply Hold; eauto|].
    split; cbn [fst snd]; [|by rewrite Hdr]. exists x, DNeg. rewrite list_lookup_insert by lia. split; [done|]. split; [done|]. eapply carries_ext; [|exact C1]. intros v. cbn. by destruct (v n).
  - apply wp_bnd. eapply wp_mono; [exact Hpos|]. intros x d1 (R1 & G1 & I1 & O1 & P1 & Po1 & L1 & C1).
    apply wp_bnd. eapply wp_mono; [apply (Hneg d1 R1 G1 L1)|]. intros y d2 (R2 & G2 & I2 & O2 & P2 & Po2 & L2 & C2). apply wp_ret.
    do 4 (split; [congruence|]).
    split; cbn [fst snd]; rewrite ?insert_length; try done; [lia|]. intros c [Hcc| ->]%Hspl; [eapply Hold; eauto using kgrows_trans|].
    split; cbn [fst snd].
    + exists x, DMixed. rewrite list_lookup_insert by lia. split; [done|]. split; [done|]. apply (carries_grow s d1); [done|done|].
      eapply carries_ext; [|exact C1]. intros v. cbn. by destruct (v n).
    + intros _. exists y. rewrite list_lookup_insert by lia. done.
Qed.

Lemma collapse_spec s order :
  network s -> alive s -> npi s = length (ins s) -> shaped s m ->
  NoDup order -> (forall x, x ∈ order -> x < size s) ->
  (forall p' n' q', order = p' ++ n' :: q' -> root s m n' -> forall c, provided s m c -> c < n' -> c = 0 \/ c ∈ ins s \/ c ∈ p') ->
  (forall f, f ∈ pos s -> root s m (sidx f) -> sidx f ∈ order) ->
  (N.of_nat (12 + 2 * length order) <= 2 ^ 31)%N ->
  wp (collapse s m order) klut_init (fun _ d => kreachable d /\ length (kins d) = npi s /\ knpi d = npi s /\
    knpo d = length (pos s) /\ length (kouts d) = length (pos s) /\
    Forall2 (fun f x => carries s d x (fun v => sval v f)) (pos s) (kouts d)).
Proof using.
  intros W Ha Hc Hcov Hnd Hlt Hbef Hroots Hroom. unfold collapse.
  destruct (drivers_spec s W Ha Hc Hcov) as (dt & Edt & Hdt & Hpos & Hleaf).
  apply wp_bnd, (wp_lift _ dt); [done|].
  pose proof (net_size s W) as Hsz.
  set (z := repeat 0 (size s)).
  assert (Hz : length z = size s) by apply repeat_length.
  destruct (lookup_lt_is_Some_2 dt 0) as [d0 Hd0]; [lia|].
  assert (exists t0, collapse_constant dt (z, z) = Some t0 /\ length t0.1 = size s /\ length t0.2 = size s /\ done_at s dt t0 klut_init 0) as (t0 & E0 & T1 & T2 & D0).
  { unfold collapse_constant. rewrite Hd0. cbn [mbind option_bind]. eexists. split; [reflexivity|].
    assert (C0 : carries s klut_init 0 (fun v => v 0)).
    { split; [unfold ksize; cbn; lia|]. intros env v w V Wk. by rewrite (mv_const _ _ _ _ V), (kv_0 _ _ _ Wk). }
    assert (C1 : carries s klut_init 1 (fun v => negb (v 0))).
    { split; [unfold ksize; cbn; lia|]. intros env v w V Wk. by rewrite (mv_const _ _ _ _ V), (kv_1 _ _ _ Wk). }
    destruct d0; cbn [fst snd kget_constant]; rewrite ?insert_length; (split; [done|]); (split; [done|]); split; cbn [fst snd].
    - exists 0, DNone. rewrite list_lookup_insert by lia. split; [done|]. split; [done|]. eapply carries_ext; [|exact C0]. intros v. cbn. by destruct (v 0).
    - by rewrite Hd0.
    - exists 0, DPos. rewrite list_lookup_insert by lia. split; [done|]. split; [done|]. eapply carries_ext; [|exact C0]. intros v. cbn. by destruct (v 0).
    - by rewrite Hd0.
    - exists 1, DNeg. rewrite list_lookup_insert by lia. split; [done|]. split; [done|]. eapply carries_ext; [|exact C1]. intros v. cbn. by destruct (v 0).
    - by rewrite Hd0.
    - exists 0, DMixed. rewrite list_lookup_insert by lia. split; [done|]. split; [done|]. eapply carries_ext; [|exact C0]. intros v. cbn. by destruct (v 0).
    - intros _. exists 1. rewrite list_lookup_insert by lia. done. }
  apply wp_bnd, (wp_lift _ t0); [done|].
  assert (Ep : pis s = ins s) by (unfold pis; rewrite Hc; by rewrite firstn_all). rewrite Ep.
  apply wp_bnd. eapply wp_mono.
  { apply (foldM_wp (collapse_pi dt) (fun p t d => length (kins d) = length p /\ knpi d = length p /\ kouts d = [] /\ knpo d = 0 /\
      cinv s dt 0 t d (fun k => k = 0 \/ k ∈ p))).
    - do 4 (split; [done|]). split; try done; [apply kreach_init|]. by intros n [->|Hn%not_elem_of_nil].
    - intros p n q t d Ei HI. apply (collapse_pi_spec s dt p n q); try done.
      pose proof (net_ins_nodup s W) as Hnd'. apply NoDup_cons in Hnd' as [H0 _]. intros ->. apply H0. rewrite Ei. apply elem_of_app. right. apply elem_of_list_here. }
  intros t1 d1 (I1 & P1 & O1 & Po1 & HI1).
  apply wp_bnd. eapply wp_mono.
  { apply (foldM_wp (collapse_cell s m dt) (fun p t d => kins d = kins d1 /\ kouts d = [] /\ knpi d = knpi d1 /\ knpo d = 0 /\
      cinv s dt (length p) t d (fun c => c = 0 \/ c ∈ ins s \/ (root s m c /\ c ∈ p)))).
    - do 4 (split; [done|]). destruct HI1 as [A1 A2 A3 A4 A5]. split; try done. intros c [?|[?|[_ ?%not_elem_of_nil]]]; [by apply A5; auto..|done].
    - intros p n q t d Eo (I2 & O2 & P2 & Po2 & HI).
      assert (Hpl : length p < length order) by (rewrite Eo, app_length; cbn; lia).
      eapply wp_mono; [apply (collapse_cell_spec s dt (length p) p n q order); try done; lia|].
      cbn. intros t' d' (A1 & A2 & A3 & A4 & A5). rewrite A1, A2, A3, A4. do 4 (split; [done|]). by rewrite app_length, Nat.add_comm. }
  intros t2 d2 (I2 & O2 & P2 & Po2 & [R2 L2 T12 T22 D2]).
  apply wp_bnd. eapply wp_mono.
  { apply (mapM_wp (collapse_po dt t2) (fun p _ d => kreachable d /\ klen d <= 10 + 2 * length order /\ kins d = kins d2 /\ knpi d = knpi d2 /\
      knpo d = length p /\ kgrows d2 d /\ Forall2 (fun f x => carries s d x (fun v => sval v f)) p (kouts d))).
    - do 4 (split; [done|]). split; [done|]. split; [apply kgrows_refl|]. rewrite O2. constructor.
    - intros p f q r d Ef (A1 & A2 & A3 & A4 & A5 & A6 & A7).
      assert (Hf : f ∈ pos s) by (rewrite Ef; apply elem_of_app; right; apply elem_of_list_here).
      destruct (Hpos f Hf) as (qd & Hq & Hpq).
      assert (Hdone : done_at s dt t2 d (sidx f)).
      { apply (done_grow _ _ _ d2); [done|done|]. apply D2. destruct (sh_po _ _ Hcov f Hf) as [?|[?|Hr]]; auto. }
      unfold collapse_po. apply wp_bnd, (wp_lift _ qd); [done|].
      assert (exists x, (match qd with DMixed => if scompl f then t2.2 !! sidx f else t2.1 !! sidx f | _ => t2.1 !! sidx f end) = Some x /\
        carries s d x (fun v => sval v f)) as (x & Ex & Cx).
      { destruct Hdone as [(x & q' & Hx & Hq' & Cx) Hopp]. rewrite Hq in Hq'. injection Hq' as <-.
        destruct qd; cbn in Hpq; [done| | |].
        - exists x. split; [done|]. eapply carries_ext; [|exact Cx]. intros v. unfold sval. rewrite Hpq. cbn. by destruct (v (sidx f)).
        - exists x. split; [done|]. eapply carries_ext; [|exact Cx]. intros v. unfold sval. rewrite Hpq. cbn. by destruct (v (sidx f)).
        - destruct (scompl f) eqn:Esc.
          + destruct (Hopp Hq) as (y & Hy & Cy). exists y. split; [done|]. eapply carries_ext; [|exact Cy]. intros v. unfold sval. rewrite Esc. cbn. by destruct (v (sidx f)).
          + exists x. split; [done|]. eapply carries_ext; [|exact Cx]. intros v. unfold sval. rewrite Esc. cbn. by destruct (v (sidx f)). }
      apply wp_bnd, (wp_lift _ x); [done|].
      apply wp_bnd. eapply wp_mono; [apply kcreate_po_r; [done|unfold kroom, klen in *; lia|apply Cx]|].
      intros r' d' (B1 & B2 & B3 & B4 & B5 & B6 & B7 & B8). apply wp_ret.
      split; [done|]. split; [lia|]. split; [congruence|]. split; [congruence|]. split; [rewrite B7, A5, app_length; cbn; lia|].
      split; [by eapply kgrows_trans|]. rewrite B5. apply Forall2_app.
      + eapply Forall2_impl; [exact A7|]. intros f' y Hcy. exact (carries_grow s d d' y _ A1 B3 Hcy).
      + constructor; [|constructor]. exact (carries_grow s d d' x _ A1 B3 Cx). }
  intros r d (A1 & A2 & A3 & A4 & A5 & A6 & A7). apply wp_ret.
  split; [done|]. split; [by rewrite A3, I2, I1, Hc|]. split; [by rewrite A4, P2, P1, Hc|]. split; [done|].
  split; [symmetry; by eapply Forall2_length|done].
Qed.

Lemma collapse_computes s d : network s -> shaped s m -> kreachable d -> knpo d = length (pos s) -> length (kouts d) = length (pos s) ->
  Forall2 (fun f x => carries s d x (fun v => sval v f)) (pos s) (kouts d) ->
  forall env l, mapped_computes s m env l <-> kcomputes d env l.
Proof using.
  intros W Hs R Hn Hl HF env l.
  assert (Ek : kpos d = kouts d) by (unfold kpos; rewrite Hn, <- Hl; apply firstn_all).
  assert (G : forall v w, mval s m env v -> kvaluation d env w -> map (sval v) (pos s) = map w (kouts d)).
  { intros v w V Wk. clear Hn Hl Ek. induction HF as [|f x p q Hc HF IH]; [done|]. cbn. f_equal; [|done]. symmetry. by apply (proj2 Hc env). }
  unfold mapped_computes, kcomputes. rewrite Ek. split.
  - intros (v & V & ->). destruct (kvaluation_exists d env (kreachable_wf d R)) as [w Wk]. exists w. split; [done|]. by apply G.
  - intros (w & Wk & ->). destruct (mval_exists s m env W Hs) as [v V]. exists v. split; [done|]. symmetry. by apply G.
Qed.

(* network_to_klut walks the topological order, choice_to_klut the gates by index *)
Lemma to_klut_spec s order :
  network s -> alive s -> npi s = length (ins s) -> shaped s m -> has_mapping m = true \/ u32 (ne s) = 0%N ->
  NoDup order -> (forall x, x ∈ order -> x < size s) ->
  (forall p' n' q', order = p' ++ n' :: q' -> root s m n' -> forall c, provided s m c -> c < n' -> c = 0 \/ c ∈ ins s \/ c ∈ p') ->
  (forall f, f ∈ pos s -> root s m (sidx f) -> sidx f ∈ order) ->
  (N.of_nat (12 + 2 * length order) <= 2 ^ 31)%N ->
  exists d, to_klut s m (Some order) = Some (Some d) /\ kreachable d /\ knpi d = npi s /\ length (kins d) = npi s /\
    knpo d = length (pos s) /\ length (kouts d) = length (pos s) /\ forall env l, mapped_computes s m env l <-> kcomputes d env l.
Proof using.
  intros W Ha Hc Hcov Hmap H1 H2 H3 H4 H5.
  destruct (wp_elim _ _ _ (collapse_spec s order W Ha Hc Hcov H1 H2 H3 H4 H5)) as (r & d & E & R & Hi & Hp & Ho & Hl & HF).
  exists d. unfold to_klut.
  assert (negb (has_mapping m) && negb (bool_decide (u32 (ne s) = 0%N)) = false) as ->.
  { destruct Hmap as [->| ->]; [done|]. rewrite bool_decide_true by done. by destruct (has_mapping m). }
  cbn [mbind option_bind]. rewrite E. cbn [mbind option_bind]. split; [done|]. do 5 (split; [done|]).
  by apply (collapse_computes s d W Hcov).
Qed.
End shaped.
