From Verif Require Import Base Aig AigSem AigProofs NetProofs Clean Tt TtProofs TtCache TtCacheProofs Cut CutProofs CutEnum CutEnumProofs Choice Mapping KlutMapping.

(* ---- the judgement of CutEnumProofs for the steps used here ---- *)
Section judgement.
Context {S A B : Type} (T : Prop).
Implicit Types Q : A -> S -> Prop.
Lemma wpt_ret a (t : S) Q : Q a t -> wpt T (ret a) t Q.
Proof. done. Qed.
Lemma wpt_get (t : S) (Q : S -> S -> Prop) : Q t t -> wpt T get t Q.
Proof. done. Qed.
Lemma wpt_lift (o : option A) (t : S) Q : (o = None -> T) -> (forall a, o = Some a -> Q a t) -> wpt T (lift o) t Q.
Proof. unfold wpt, lift. destruct o; auto. Qed.
Lemma wpt_fail (t : S) Q : T -> wpt T fail t Q.
Proof. done. Qed.
Lemma wpt_conj (m : M S A) t Q (P : A -> S -> Prop) : wpt T m t Q -> wpt True m t P -> wpt T m t (fun a u => Q a u /\ P a u).
Proof. unfold wpt. destruct (m t) as [[a u]|]; auto. Qed.
Lemma wpt_some (m : M S A) t a u Q : wpt T m t Q -> m t = Some (a, u) -> Q a u.
Proof. intros H E. unfold wpt in H. by rewrite E in H. Qed.
Lemma wpt_any (m : M S A) t : wpt True m t (fun _ _ => True).
Proof. unfold wpt. by destruct (m t) as [[a u]|]. Qed.
Lemma foldM_inv (f : B -> A -> M S B) (I : B -> S -> Prop) l :
  (forall b t x, x ∈ l -> I b t -> wpt T (f b x) t I) -> forall b t, I b t -> wpt T (foldM f b l) t I.
Proof.
  induction l as [|x l IH]; intros Hf b t HI; cbn [foldM]; [done|].
  apply wpt_bnd. eapply wpt_mono; [apply Hf; [constructor|done]|]. intros b' t' HI'.
  apply IH; [|done]. intros. apply Hf; [by constructor|done].
Qed.
Lemma mapM_inv (f : A -> M S B) (I : S -> Prop) l :
  (forall t x, x ∈ l -> I t -> wpt T (f x) t (fun _ => I)) -> forall t, I t -> wpt T (mapM f l) t (fun _ => I).
Proof.
  induction l as [|x l IH]; intros Hf t HI; cbn [mapM]; [done|].
  apply wpt_bnd. eapply wpt_mono; [apply Hf; [constructor|done]|]. intros b t' HI'.
  apply wpt_bnd. eapply wpt_mono; [apply IH; [|done]|]; [intros; apply Hf; [by constructor|done]|]. intros ? ? ?. done.
Qed.
(* with the number of elements processed *)
Lemma mapM_count (f : A -> M S B) (I : nat -> S -> Prop) l : forall i,
  (forall j t x, i <= j < i + length l -> x ∈ l -> I j t -> wpt T (f x) t (fun _ => I (Datatypes.S j))) ->
  forall t, I i t -> wpt T (mapM f l) t (fun _ => I (i + length l)).
Proof.
  induction l as [|x l IH]; intros i Hf t HI; cbn [mapM length].
  - by rewrite Nat.add_0_r.
  - apply wpt_bnd. eapply wpt_mono; [apply (Hf i); [cbn; lia|constructor|done]|]. intros b t' HI'.
    apply wpt_bnd. eapply wpt_mono; [apply (IH (Datatypes.S i)); [|done]|].
    + intros. apply Hf; [cbn; lia|by constructor|done].
    + intros ? ? HI2. unfold wpt, ret. by replace (i + Datatypes.S (length l)) with (Datatypes.S i + length l) by lia.
Qed.
End judgement.

Lemma cache_get_flip ca l t : cache_get l ca = Some t -> cache_get (N.lxor l 1) ca = Some (tt_not t).
Proof.
  unfold cache_get. assert (E : (N.lxor l 1 / 2 = l / 2)%N).
  { rewrite <- !N.div2_div. apply N.bits_inj. intros i. rewrite !N.div2_spec, !N.shiftr_spec', N.lxor_spec.
    replace (N.testbit 1 (i + 1)) with false; [by rewrite xorb_false_r|]. symmetry. apply N.bits_above_log2. cbn. lia. }
  assert (O : N.odd (N.lxor l 1) = negb (N.odd l)).
  { rewrite <- !N.bit0_odd, N.lxor_spec. cbn. by rewrite xorb_true_r. }
  rewrite E. destruct (cdata ca !! N.to_nat (l / 2)) as [u|]; [|done]. cbn [mbind option_bind]. rewrite O.
  destruct (N.odd l); cbn [negb]; intros [= <-]; [by rewrite not_not|done].
Qed.

(* all entries of the array after an insertion *)
Lemma cs_insert_arr {D} (lt : cut D -> cut D -> bool) cap max (x : cut D) cs cs' :
  cs_ok max cs -> 0 < max -> cut_wf x -> length (lvs x) <= cap -> cs_insert lt cap x cs = Some cs' ->
  lvs x <> [] /\ cs_ok max cs' /\ forall y, y ∈ arr cs' -> y = x \/ y ∈ arr cs.
Proof.
  intros Hok Hm Hw Hc E. assert (Hne : lvs x <> []).
  { intros E0. unfold cs_insert in E. by rewrite decide_True in E. }
  destruct (cs_insert_spec lt max cap x cs Hok Hm Hw Hne Hc) as (cs2 & E2 & Hok2 & _). rewrite E in E2. injection E2 as <-.
  split; [done|]. split; [done|]. intros y Hy. unfold cs_insert in E. rewrite decide_False in E by done.
  set (keep := filter (fun o => dominates x o = false) (vis cs)) in *. set (drp := filter (fun o => dominates x o = true) (vis cs)) in *.
  set (all := keep ++ drp ++ drop (cn cs) (arr cs)) in *. cbv zeta in E.
  assert (Hall : forall z, z ∈ all -> z ∈ arr cs).
  { intros z Hz. rewrite <- (take_drop (cn cs) (arr cs)). apply elem_of_app. unfold all in Hz. rewrite !elem_of_app in Hz.
    destruct Hz as [Hz|[Hz|Hz]]; [left|left|by right]; by apply elem_of_list_filter in Hz as [_ Hz]. }
  case_decide; [injection E as <-; right; by apply Hall|].
  set (pend := if decide (length keep = length (arr cs)) then length keep - 1 else length keep) in *.
  destruct (all !! pend) as [z|] eqn:Ez; cbn [mbind option_bind] in E; [|done].
  unfold set_leaves in E. rewrite decide_True in E by done. cbn [mbind option_bind lvs sg] in E. injection E as <-. cbn [arr] in Hy.
  assert (Hd : forall q z (l : list (cut D)), z ∈ drop q l -> z ∈ l) by (intros q z0 l Hz0; rewrite <- (take_drop q l); apply elem_of_app; auto).
  assert (Ht : forall q z (l : list (cut D)), z ∈ take q l -> z ∈ l) by (intros q z0 l Hz0; rewrite <- (take_drop q l); apply elem_of_app; auto).
  rewrite ?elem_of_app, ?elem_of_cons, ?elem_of_app in Hy. destruct Hy as [Hy|[Hy|[Hy|Hy]]].
  - right. apply Hall. by eapply Ht.
  - subst y. left. destruct x as [l g f d]. destruct Hw as [_ Hg]. cbn in *. by rewrite Hg.
  - right. apply Hall. by eapply Ht, Hd.
  - right. apply Hall. by eapply Hd.
Qed.

Section klut.
Context (A : fops) (c : cnet) (cap max : nat) (stale : list (cut (gdata A)) -> list (cut (gdata A))).
Notation s := (cb c).
Notation gcut := (cut (gdata A)).
Hypothesis Hstale : forall l, stale l ≡ₚ l.
Hypothesis Hmax : 0 < max.
Hypothesis Hnet : network s.
Hypothesis Htopo : forall n m, fanin s n m -> m < n.
Hypothesis Hlink : forall n m, link c n m -> m < n /\
  forall pn pm env v, ph s !! n = Some pn -> ph s !! m = Some pm -> valuation s env v -> v n = xorb (v m) (xorb pn pm).
(* a set of nodes closed under fanins and choices *)
Variable Cl : nat -> Prop.
Hypothesis Hcl : forall n m, Cl n -> fanin s n m -> Cl m.
Hypothesis Hclink : forall n m, Cl n -> link c n m -> Cl m.
Variable ps : cut_ps.

Record kgood (n : nat) (ca : cache) (x : gcut) : Prop := {
  kg_wf : cut_wf x;
  kg_len : length (lvs x) <= Nat.max 1 (cut_size ps);
  kg_cap : length (lvs x) <= cap;
  kg_below : lvs x = [n] \/ forall l, l ∈ lvs x -> l < n;
  kg_cl : Cl n -> forall l, l ∈ lvs x -> Cl l;
  kg_fun : exists t, cache_get (fid x) ca = Some t /\ tt_wf t /\ cut_function s n (lvs x) t
}.
Definition okc (n : nat) (ca : cache) (x : gcut) : Prop := lvs x = [] \/ kgood n ca x.

Lemma kgood_prefix n ca ca' x : (exists r, cdata ca' = cdata ca ++ r) -> kgood n ca x -> kgood n ca' x.
Proof.
  intros Hp [H1 H2 H3 H4 H5 (t & Hg & Hr)]. split; try done. exists t. split; [by eapply cache_get_prefix|done].
Qed.
Lemma okc_prefix n ca ca' x : (exists r, cdata ca' = cdata ca ++ r) -> okc n ca x -> okc n ca' x.
Proof. intros Hp [H|H]; [by left|right; by eapply kgood_prefix]. Qed.
Lemma kgood_data n ca x d : kgood n ca x -> kgood n ca (Cut (lvs x) (sg x) (fid x) d).
Proof. intros [[H1 H1'] H2 H3 H4 H5 H6]. split; try done. Qed.
Lemma kgood_le n ca x l : kgood n ca x -> l ∈ lvs x -> l <= n.
Proof. intros G Hl. destruct (kg_below _ _ _ G) as [E|H]; [rewrite E in Hl; apply elem_of_list_singleton in Hl as ->; lia|specialize (H l Hl); lia]. Qed.

Lemma unit_kgood n ca d : 1 <= cap -> cdata ca !! 1 = Some (tt_var 1 0) -> kgood n ca (Cut [n] (sign_of [n]) 2 d).
Proof.
  intros Hc1 Hc. split; cbn [lvs fid].
  - split; cbn; [|done]. apply sorted_cons. split; [intros y ?%not_elem_of_nil; done|apply sorted_nil].
  - cbn. lia.
  - done.
  - by left.
  - intros H l ->%elem_of_list_singleton. done.
  - exists (tt_var 1 0). split; [|split; [apply var_wf|]].
    + unfold cache_get. change (N.to_nat (2 / 2)) with 1. rewrite Hc. done.
    + split; [done|]. intros env v Hv. rewrite eval_var by lia. done.
Qed.

Lemma kctt n a b c1 c2 (res : gcut) ca :
  ks s !! n = Some (a, b) -> n <> 0 -> a <> b ->
  cinv ca -> (N.of_nat (S (length (cdata ca))) <= 2 ^ 31)%N ->
  kgood (sidx a) ca c1 -> kgood (sidx b) ca c2 -> cut_wf res -> length (lvs res) <= cap ->
  lvs res = set_union (lvs c1) (lvs c2) -> length (lvs res) <= cut_size ps ->
  exists c' ca', compute_truth_table cap s ps n c1 c2 res ca = Some (c', ca') /\
    cinv ca' /\ (exists r, cdata ca' = cdata ca ++ r) /\ length (cdata ca') <= S (length (cdata ca)) /\
    kgood n ca' c' /\ (minimize ps = false -> lvs c' = lvs res).
Proof.
  intros Hk H0 Hab Hc Hb G1 G2 Wr Lr Hu Lc.
  assert (Fa : fanin s n (sidx a)) by (exists a, b; eauto).
  assert (Fb : fanin s n (sidx b)) by (exists a, b; eauto).
  assert (Hsub1 : forall x, x ∈ lvs c1 -> x ∈ lvs res) by (intros; rewrite Hu, set_union_elem; auto).
  assert (Hsub2 : forall x, x ∈ lvs c2 -> x ∈ lvs res) by (intros; rewrite Hu, set_union_elem; auto).
  assert (Hbelow : forall l, l ∈ lvs res -> l < n).
  { intros l. rewrite Hu, set_union_elem. pose proof (Htopo _ _ Fa). pose proof (Htopo _ _ Fb).
    intros [Hl|Hl]; [pose proof (kgood_le _ _ _ _ G1 Hl)|pose proof (kgood_le _ _ _ _ G2 Hl)]; lia. }
  assert (Hclos : Cl n -> forall l, l ∈ lvs res -> Cl l).
  { intros Hn l. rewrite Hu, set_union_elem. intros [Hl|Hl]; [eapply (kg_cl _ _ _ G1)|eapply (kg_cl _ _ _ G2)]; try done; by eapply Hcl. }
  destruct (kg_fun _ _ _ G1) as (t1 & Hg1 & Hw1 & Hf1).
  destruct (kg_fun _ _ _ G2) as (t2 & Hg2 & Hw2 & Hf2).
  destruct (child_tt_spec s (sidx a) c1 (lvs res) ca t1 (kg_wf _ _ _ G1) (cw_sorted _ Wr) Hsub1 Hg1 Hw1 Hf1) as (u1 & E1 & Wu1 & Nu1 & Ev1).
  destruct (child_tt_spec s (sidx b) c2 (lvs res) ca t2 (kg_wf _ _ _ G2) (cw_sorted _ Wr) Hsub2 Hg2 Hw2 Hf2) as (u2 & E2 & Wu2 & Nu2 & Ev2).
  unfold compute_truth_table. rewrite Hk, E1, E2. cbn [mbind option_bind fst snd].
  set (t := tt_and (tt_not_if u1 (scompl a)) (tt_not_if u2 (scompl b))).
  assert (Hnn : nv (tt_not_if u1 (scompl a)) = nv (tt_not_if u2 (scompl b))) by (rewrite !nv_not_if; lia).
  assert (Wt : tt_wf t) by (apply and_wf; [by apply not_if_wf..|done]).
  assert (Nt : nv t = length (lvs res)) by (unfold t; cbn; rewrite nv_not_if; lia).
  assert (Et : forall env v, valuation s env v -> tt_eval t (leafval v (lvs res)) = v n).
  { intros env v Hv. unfold t. rewrite eval_and by (by apply not_if_wf || done).
    rewrite !eval_not_if by done. rewrite (Ev1 env v Hv), (Ev2 env v Hv).
    symmetry. apply (val_gate s env v Hv n a b Hk H0 Hab). }
  destruct (minimize ps) eqn:Em.
  - pose proof (min_base_spec t Wt) as Hmb. destruct (min_base t) as [t' supp].
    destruct Hmb as (Wt' & Nt' & Inc & Bd & Hnv & Hev). case_decide as Hsl.
    + destruct (cache_insert t' ca) as [f ca'] eqn:Ei.
      destruct (insert_get t' ca f ca' Hc Wt' Ei Hb) as (Hc' & Hp & Hl & Hg).
      eexists _, _. split; [done|]. split; [done|]. split; [done|]. split; [done|]. split; [|done].
      split; cbn [lvs sg fid]; [split; apply Wr|lia|done|by right|done|].
      exists t'. split; [done|]. split; [done|]. split; [lia|]. intros env v Hv.
      change (fun k => _) with (leafval v (lvs res)). rewrite <- (Et env v Hv). apply Hev.
      intros k p Hkp. f_equal. symmetry.
      assert (Hid : forall k p, supp !! k = Some p -> p = k); [|by apply Hid].
      clear - Inc Bd Hsl Nt. intros k p Hkp.
      assert (G : forall d k p, k + d = length supp - 1 -> supp !! k = Some p -> p <= k).
      { rewrite Forall_forall in Bd. induction d as [|d IH]; intros k0 p0 Hd Hp0.
        - pose proof (Bd p0 ltac:(by eapply elem_of_list_lookup_2)). lia.
        - destruct (lookup_lt_is_Some_2 supp (S k0)) as [q Hq]; [lia|].
          specialize (IH (S k0) q ltac:(lia) Hq). specialize (Inc k0 (S k0) p0 q ltac:(lia) Hp0 Hq). lia. }
      pose proof (incr_ge _ Inc _ _ Hkp). pose proof (lookup_lt_Some _ _ _ Hkp).
      specialize (G (length supp - 1 - k) k p ltac:(lia) Hkp). lia.
    + assert (Hsl' : length supp <= nv t').
      { destruct (decide (length supp = 0)); [lia|].
        destruct (lookup_lt_is_Some_2 supp (length supp - 1)) as [q Hq]; [lia|].
        pose proof (incr_ge _ Inc _ _ Hq). rewrite Forall_forall in Bd.
        specialize (Bd q ltac:(by eapply elem_of_list_lookup_2)). lia. }
      destruct (shrink_spec t' (length supp) Wt' Hsl') as (t3 & -> & Wt3 & Nt3 & Ev3).
      { intros i Hi1 Hi2. apply Hnv; lia. }
      cbn [mbind option_bind].
      destruct (pick_spec (lvs res) supp) as (l & Hpk & Ll & Lk); [by rewrite <- Nt|].
      destruct (pick_sorted _ _ _ (cw_sorted _ Wr) Inc Hpk Lk Ll) as [Sl Subl].
      rewrite Hpk. cbn [mbind option_bind]. unfold set_leaves.
      assert (Hll : length l <= length (lvs res)) by (apply NoDup_sub_length; [by apply sorted_NoDup|done]).
      rewrite decide_True by lia. cbn [mbind option_bind lvs sg fid dat].
      destruct (cache_insert t3 ca) as [f ca'] eqn:Ei.
      destruct (insert_get t3 ca f ca' Hc Wt3 Ei Hb) as (Hc' & Hp & Hl & Hg).
      eexists _, _. split; [done|]. split; [done|]. split; [done|]. split; [done|]. split; [|done].
      split; cbn [lvs sg fid]; [by split|lia|lia|right; auto|auto|].
      exists t3. split; [done|]. split; [done|]. split; [lia|]. intros env v Hv.
      change (fun k => _) with (leafval v l). rewrite <- (Et env v Hv), Ev3. apply Hev.
      intros k p Hkp. unfold leafval. by rewrite (Lk _ _ Hkp).
  - destruct (cache_insert t ca) as [f ca'] eqn:Ei.
    destruct (insert_get t ca f ca' Hc Wt Ei Hb) as (Hc' & Hp & Hl & Hg).
    eexists _, _. split; [done|]. split; [done|]. split; [done|]. split; [done|]. split; [|done].
    split; cbn [lvs sg fid]; [split; apply Wr|lia|done|by right|done|].
    exists t. split; [done|]. split; [done|]. split; [lia|]. exact Et.
Qed.

(* ---- the state between steps ---- *)
Record kinv (B : nat) (t : kst A) : Prop := {
  ki_sets : length (sets A t) = size s;
  ki_best : length (best A t) = size s;
  ki_cinv : cinv (tts A t);
  ki_c1 : cdata (tts A t) !! 1 = Some (tt_var 1 0);
  ki_len : length (cdata (tts A t)) <= B;
  ki_cuts : forall n cs, sets A t !! n = Some cs -> cs_ok max cs /\ (forall x, x ∈ arr cs -> okc n (tts A t) x) /\ (forall x, x ∈ vis cs -> lvs x <> []);
  ki_bests : forall n x, best A t !! n = Some x -> okc n (tts A t) x
}.
Lemma kinv_mono B B' t : B <= B' -> kinv B t -> kinv B' t.
Proof. intros H [? ? ? ? ? ? ?]. split; try done. lia. Qed.

(* the parts cut computations leave alone *)
Definition frame (t u : kst A) : Prop := sets A u = sets A t /\ best A u = best A t /\ tts A u = tts A t.
Lemma frame_refl t : frame t t. Proof. done. Qed.
Lemma frame_trans t u w : frame t u -> frame u w -> frame t w.
Proof. intros (?&?&?) (?&?&?). repeat split; congruence. Qed.
Lemma frame_kinv B t u : frame t u -> kinv B t -> kinv B u.
Proof. intros (E1&E2&E3) [? ? ? ? ? ? ?]. split; rewrite ?E1, ?E2, ?E3; done. Qed.

(* computations that only touch numbers *)
Definition num {X} (m : K A X) : Prop := forall t, wpt True m t (fun _ u => frame t u).
Lemma num_ret {X} (a : X) : num (ret a). Proof. intros t. apply frame_refl. Qed.
Lemma num_fail {X} : num (@fail (kst A) X). Proof. intros t. exact I. Qed.
Lemma num_get : num get. Proof. intros t. apply frame_refl. Qed.
Lemma num_lift {X} (o : option X) : num (lift o). Proof. intros t. destruct o; [apply frame_refl|exact I]. Qed.
Lemma num_get_best n : num (get_best A n).
Proof. intros t. unfold wpt, get_best. destruct (best A t !! n); [apply frame_refl|exact I]. Qed.
Lemma num_get_set n : num (get_set A n).
Proof. intros t. unfold wpt, get_set. destruct (sets A t !! n); [apply frame_refl|exact I]. Qed.
Lemma num_bnd {X Y} (m : K A X) (k : X -> K A Y) : num m -> (forall a, num (k a)) -> num (bnd m k).
Proof.
  intros Hm Hk t. apply wpt_bnd. eapply wpt_mono; [apply Hm|]. intros a u Hu. eapply wpt_mono; [apply Hk|]. intros b w Hw.
  exact (frame_trans _ _ _ Hu Hw).
Qed.
Lemma num_modify f : (forall t, frame t (f t)) -> num (modify A f).
Proof. intros H t. apply H. Qed.
Lemma num_foldM {X Y} (f : Y -> X -> K A Y) l : (forall b x, num (f b x)) -> forall b, num (foldM f b l).
Proof. intros H. induction l as [|x l IH]; intros b; cbn [foldM]; [apply num_ret|]. apply num_bnd; [apply H|apply IH]. Qed.
Lemma num_mapM {X Y} (f : X -> K A Y) l : (forall x, num (f x)) -> num (mapM f l).
Proof. intros H. induction l as [|x l IH]; cbn [mapM]; [apply num_ret|]. apply num_bnd; [apply H|]. intros. apply num_bnd; [apply IH|]. intros. apply num_ret. Qed.
Lemma num_if {X} (b : bool) (m k : K A X) : num m -> num k -> num (if b then m else k).
Proof. by destruct b. Qed.
Lemma num_dec {X} P `{Decision P} (m k : K A X) : num m -> num k -> num (if decide P then m else k).
Proof. by case_decide. Qed.

Ltac num_tac := repeat first
  [ assumption | apply num_ret | apply num_fail | apply num_get | apply num_lift | apply num_get_best | apply num_get_set
  | apply num_if | apply num_dec | apply num_foldM; intros | apply num_mapM; intros | apply num_modify; intros; done
  | apply num_bnd; intros ].

Lemma is_stop_num l : num (is_stop A c l). Proof. unfold is_stop. num_tac. Qed.
Lemma is_source_num l : num (is_source A c l). Proof. unfold is_source. num_tac. Qed.
Lemma set_ref_num n x : num (set_ref A n x). Proof. unfold set_ref. num_tac. Qed.
Lemma cut_deref_num w fuel : forall x, num (cut_deref A c w fuel x).
Proof. induction fuel as [|fuel IH]; intros x; cbn [cut_deref]; num_tac; try apply set_ref_num; try apply is_stop_num; try apply IH. Qed.
Lemma cut_ref_num w fuel : forall x, num (cut_ref A c w fuel x).
Proof. induction fuel as [|fuel IH]; intros x; cbn [cut_ref]; num_tac; try apply set_ref_num; try apply is_stop_num; try apply IH. Qed.
Lemma cut_derefed_num w x : num (cut_derefed A c w x).
Proof. unfold cut_derefed. num_tac; [apply cut_ref_num|apply cut_deref_num]. Qed.
Lemma cut_flow_num w g x : num (cut_flow A w g x).
Proof. unfold cut_flow. num_tac. Qed.
Lemma cut_delay_num x : num (cut_delay A x).
Proof. unfold cut_delay. num_tac. Qed.
Lemma cut_cost_num am x : num (cut_cost A c am x).
Proof.
  unfold cut_cost. apply num_bnd; [apply num_if; [apply cut_derefed_num|apply cut_flow_num]|intros a].
  apply num_bnd; [apply num_if; [apply cut_derefed_num|apply cut_flow_num]|intros e]. apply num_bnd; [apply cut_delay_num|intros d]. apply num_ret.
Qed.
Lemma recount_num f mode n : (forall k x, num (f k x)) -> num (recount A c f mode n).
Proof. intros H. unfold recount. num_tac. apply H. Qed.
Lemma mark_current_num fuel : forall n, num (mark_current A c fuel n).
Proof. induction fuel as [|fuel IH]; intros x; cbn [mark_current]; num_tac; try apply set_ref_num; try apply is_source_num; try apply IH. Qed.
Lemma mark_ref_num fuel : forall n, num (mark_ref A c fuel n).
Proof. induction fuel as [|fuel IH]; intros x; cbn [mark_ref]; num_tac; try apply set_ref_num; try apply is_source_num; try apply IH. Qed.
Lemma require_class_num n fuel : forall m, num (require_class A c fuel n m).
Proof. induction fuel as [|fuel IH]; intros [m|]; cbn [require_class]; num_tac; apply IH. Qed.
Lemma required_times_num ba order : num (required_times A c ba order).
Proof.
  unfold required_times, clear_refs, require_node. num_tac; first [apply mark_current_num|apply is_source_num|apply require_class_num].
Qed.
Lemma reset_refs_num : num (reset_refs A c).
Proof. unfold reset_refs, clear_refs. num_tac. Qed.

Definition keeps {X} (m : K A X) : Prop := forall B t, kinv B t -> wpt True m t (fun _ => kinv B).
Lemma num_keeps {X} (m : K A X) : num m -> keeps m.
Proof. intros H B t HI. eapply wpt_mono; [apply H|]. intros a u Hf. exact (frame_kinv _ _ _ Hf HI). Qed.
Lemma keeps_bnd {X Y} (m : K A X) (k : X -> K A Y) : keeps m -> (forall a, keeps (k a)) -> keeps (bnd m k).
Proof. intros Hm Hk B t HI. apply wpt_bnd. eapply wpt_mono; [by apply Hm|]. intros a u Hu. by apply Hk. Qed.

(* a new set for node n *)
Lemma put_set_inv B t n cs : kinv B t -> n < size s -> cs_ok max cs -> (forall x, x ∈ arr cs -> okc n (tts A t) x) ->
  (forall x, x ∈ vis cs -> lvs x <> []) -> kinv B (set_sets A (<[n := cs]> (sets A t)) t).
Proof.
  intros [H1 H2 H3 H4 H5 H6 H7] Hn Hok Ha Hv. split; cbn [sets best tts set_sets]; try done.
  - by rewrite insert_length.
  - intros m cs' Hm. destruct (decide (m = n)) as [->|Hne].
    + rewrite list_lookup_insert in Hm by lia. by injection Hm as <-.
    + rewrite list_lookup_insert_ne in Hm by done. by apply H6.
Qed.
Lemma put_best_inv B t n x : kinv B t -> okc n (tts A t) x -> kinv B (set_best A (<[n := x]> (best A t)) t).
Proof.
  intros [H1 H2 H3 H4 H5 H6 H7] Hx. split; cbn [sets best tts set_best]; try done.
  - by rewrite insert_length.
  - intros m y Hm. destruct (decide (m = n)) as [->|Hne].
    + apply list_lookup_insert_Some in Hm as [(_ & <- & _)|[? _]]; done.
    + rewrite list_lookup_insert_ne in Hm by done. by apply H7.
Qed.

(* results of add_unit_cut *)
Lemma unit_cut_eq n t u x : unit_cut A cap n t = Some (x, u) -> exists cs y, sets A t !! n = Some cs /\ arr cs !! cn cs = Some y /\ 1 <= cap /\
  u = set_sets A (<[n := CS (<[cn cs := Cut [n] (sign_of [n]) 2 (dat y)]> (arr cs)) (S (cn cs)) ((clen cs + 1) mod 256)]> (sets A t)) t.
Proof.
  unfold unit_cut, add_unit_cut, add_leaf_cut. cbn [fst snd]. destruct (sets A t !! n) as [cs|] eqn:Es; cbn [mbind option_bind]; [|done].
  unfold add_cut. destruct (arr cs !! cn cs) as [y|] eqn:Ey; cbn [mbind option_bind]; [|done]. unfold set_leaves.
  case_decide as Hc; cbn [mbind option_bind]; [|done]. cbn [arr cn]. rewrite list_lookup_insert by (by eapply lookup_lt_Some).
  cbn [mbind option_bind fst snd lvs sg dat clen]. rewrite list_insert_insert. intros [= _ <-]. exists cs, y. cbn in Hc. repeat split; done.
Qed.
Lemma unit_vis (cs : cutset (gdata A)) y z : arr cs !! cn cs = Some y ->
  vis (CS (<[cn cs := z]> (arr cs)) (S (cn cs)) ((clen cs + 1) mod 256)) = vis cs ++ [z].
Proof.
  intros Hy. unfold vis. cbn [arr cn]. assert (Hl : cn cs < length (arr cs)) by (by eapply lookup_lt_Some).
  rewrite (take_S_r _ _ z) by (by apply list_lookup_insert). f_equal. apply take_insert. lia.
Qed.
Lemma unit_cut_keeps n : keeps (unit_cut A cap n).
Proof.
  intros B t HI. unfold wpt. destruct (unit_cut A cap n t) as [[x u]|] eqn:E; [|done].
  apply unit_cut_eq in E as (cs & y & Es & Ey & Hc & ->). destruct (ki_cuts _ _ HI n cs Es) as ([Ok1 Ok2] & Ha & Hv).
  pose proof (lookup_lt_Some _ _ _ Ey) as Hly. assert (G : kgood n (tts A t) (Cut [n] (sign_of [n]) 2 (dat y))) by (apply unit_kgood; [done|apply HI]).
  apply put_set_inv; [done|rewrite <- (ki_sets _ _ HI); by eapply lookup_lt_Some| | |].
  - split; cbn [arr cn]; rewrite ?insert_length; lia.
  - cbn [arr]. intros x' Hx. apply elem_of_list_lookup in Hx as [i Hi].
    apply list_lookup_insert_Some in Hi as [(_ & <- & _)|[_ Hi]]; [by right|]. apply Ha. by eapply elem_of_list_lookup_2.
  - rewrite (unit_vis cs y) by done. intros x' [Hx|Hx%elem_of_list_singleton]%elem_of_app; [by apply Hv|by subst].
Qed.

Lemma kgood_okc n ca x : kgood n ca x -> okc n ca x. Proof. by right. Qed.
Lemma okc_good n ca x : okc n ca x -> lvs x <> [] -> kgood n ca x. Proof. by intros [H|H]. Qed.

Lemma insert_cut_inv B t e n x : kinv B t -> okc n (tts A t) x -> wpt True (insert_cut A cap e n x) t
  (fun _ u => kinv B u /\ tts A u = tts A t).
Proof.
  intros HI Hx. unfold insert_cut. apply wpt_bnd. unfold wpt at 1, get_set. destruct (sets A t !! n) as [cs|] eqn:Es; cbn [mbind option_bind]; [|done].
  destruct (ki_cuts _ _ HI n cs Es) as (Ok & Ha & Hv). apply wpt_bnd. apply wpt_lift; [done|]. intros cs' E.
  assert (Hne : lvs x <> []) by (intros E0; unfold cs_insert in E; by rewrite decide_True in E).
  pose proof (okc_good _ _ _ Hx Hne) as G.
  destruct (cs_insert_arr (glt A e) cap max x cs cs' Ok Hmax (kg_wf _ _ _ G) (kg_cap _ _ _ G) E) as (_ & Ok' & Ha').
  split; [|done]. apply put_set_inv; [done|rewrite <- (ki_sets _ _ HI); by eapply lookup_lt_Some|done| |].
  - intros y [->|Hy]%Ha'; [done|by apply Ha].
  - intros y Hy. destruct (vis_cases (glt A e) max cap x cs cs' Ok Hmax (kg_wf _ _ _ G) Hne (kg_cap _ _ _ G) E) as (l & q & El & Hl).
    rewrite El in Hy. assert (Hk : forall z, z ∈ filter (fun o => dominates x o = false) (vis cs) -> lvs z <> []).
    { intros z [_ Hz]%elem_of_list_filter. by apply Hv. }
    destruct Hl as [->|(k & -> & _ & tl & Hk')]; [by apply Hk|].
    rewrite !elem_of_app, elem_of_list_singleton in Hy. destruct Hy as [Hy|[->|Hy]]; [|done|]; apply Hk; rewrite Hk'; apply elem_of_app; left;
      rewrite <- (take_drop q k); apply elem_of_app; auto.
Qed.

Lemma put_tts_inv B t ca : kinv B t -> cinv ca -> (exists r, cdata ca = cdata (tts A t) ++ r) -> length (cdata ca) <= S (length (cdata (tts A t))) ->
  kinv (S B) (set_tts A ca t).
Proof.
  intros [H1 H2 H3 H4 H5 H6 H7] Hc Hp Hl. split; cbn [sets best tts set_tts]; try done.
  - destruct Hp as [r ->]. by apply lookup_app_l_Some.
  - lia.
  - intros n cs Hn. destruct (H6 n cs Hn) as (? & Ha & ?). split; [done|]. split; [|done]. intros x Hx. eapply okc_prefix; [done|auto].
  - intros n x Hx. eapply okc_prefix; [done|eauto].
Qed.

Definition grown (t u : kst A) : Prop := exists r, cdata (tts A u) = cdata (tts A t) ++ r.
Lemma grown_refl t : grown t t. Proof. exists []. by rewrite app_nil_r. Qed.
Lemma grown_trans t u w : grown t u -> grown u w -> grown t w.
Proof. intros [r Hr] [r' Hr']. exists (r ++ r'). by rewrite Hr', Hr, app_assoc. Qed.

Lemma kmerge_pair_inv B t e am n a b c1 c2 nc : kinv B t -> ks s !! n = Some (a, b) -> n <> 0 -> a <> b -> (N.of_nat (S B) <= 2 ^ 31)%N ->
  kgood (sidx a) (tts A t) c1 -> kgood (sidx b) (tts A t) c2 ->
  wpt True (kmerge_pair A c cap ps e am n c1 c2 nc) t (fun _ u => kinv (S B) u /\ grown t u).
Proof.
  intros HI Hk H0 Hab HB G1 G2. unfold kmerge_pair. apply wpt_bnd, wpt_lift; [done|]. intros [nc1|] Em.
  2:{ apply wpt_ret. split; [by eapply kinv_mono; [|done]; lia|apply grown_refl]. }
  destruct (merge_success _ _ _ _ _ _ (kg_wf _ _ _ G1) (kg_wf _ _ _ G2) Em) as (Hu & Wn & Lk & Lc & Ef & Ed).
  apply wpt_bnd. eapply wpt_mono; [apply (wpt_conj _ _ _ (fun _ u => u = t) (fun _ _ => True)); [|unfold wpt; by destruct (get_set A n t) as [[? ?]|]]|].
  { unfold wpt, get_set. by destruct (sets A t !! n). }
  intros rcuts u [-> _]. destruct (is_dominated rcuts nc1).
  { apply wpt_ret. split; [by eapply kinv_mono; [|done]; lia|apply grown_refl]. }
  apply wpt_bnd, wpt_get. pose proof (ki_len _ _ HI) as Hlen.
  destruct (kctt n a b c1 c2 nc1 (tts A t) Hk H0 Hab (ki_cinv _ _ HI)) as (c' & ca' & -> & Hc & Hp & Hl & Gc & _); try done; [lia|].
  apply wpt_bnd. apply wpt_lift; [done|]. intros r [= <-]. cbn [fst snd].
  apply wpt_bnd. unfold wpt at 1, modify. pose proof (put_tts_inv B t ca' HI Hc Hp Hl) as HI'.
  apply wpt_bnd. eapply wpt_mono; [apply (wpt_conj _ _ _ (fun nc3 u => exists d, nc3 = Cut (lvs c') (sg c') (fid c') d) (fun _ u => frame (set_tts A ca' t) u)); [|apply cut_cost_num]|].
  { unfold cut_cost. do 3 (apply wpt_bnd; apply (wpt_mono _ _ _ (fun _ _ => True)); [apply wpt_any|]; intros ? ? _).
    apply wpt_ret. by eexists. }
  intros nc3 u [[d ->] Fr]. pose proof (frame_kinv _ _ _ Fr HI') as HIu. destruct Fr as (_ & _ & Et). cbn in Et.
  apply wpt_bnd. eapply wpt_mono; [apply (insert_cut_inv (S B) u); [done|]|].
  - right. rewrite Et. by apply kgood_data.
  - intros _ w [HIw Ew]. apply wpt_ret. split; [done|]. unfold grown. by rewrite Ew, Et.
Qed.

Lemma get_set_pt n t (Q : _ -> _ -> Prop) : (forall cs, sets A t !! n = Some cs -> Q cs t) -> wpt True (get_set A n) t Q.
Proof. intros H. unfold wpt, get_set. destruct (sets A t !! n) as [cs|] eqn:E; cbn; auto. Qed.
Lemma get_best_pt n t (Q : _ -> _ -> Prop) : (forall x, best A t !! n = Some x -> Q x t) -> wpt True (get_best A n) t Q.
Proof. intros H. unfold wpt, get_best. destruct (best A t !! n) as [cs|] eqn:E; cbn; auto. Qed.
Lemma best_of_set_pt n t (Q : _ -> _ -> Prop) : (forall cs x, sets A t !! n = Some cs -> arr cs !! 0 = Some x -> Q x t) -> wpt True (best_of_set A n) t Q.
Proof. intros H. apply wpt_bnd, get_set_pt. intros cs Hcs. apply wpt_lift; [done|]. eauto. Qed.

Lemma limit_set_keeps n : keeps (limit_set A ps n).
Proof.
  intros B t HI. unfold limit_set. apply wpt_bnd, get_set_pt. intros cs Hcs. destruct (ki_cuts _ _ HI n cs Hcs) as (Ok & Ha & Hv).
  apply wpt_bnd, wpt_lift; [done|]. intros cs' E. unfold wpt, put_set, modify.
  assert (H : cs_ok max cs' /\ arr cs' = arr cs /\ forall x, x ∈ vis cs' -> x ∈ vis cs).
  { unfold limit in E. case_decide; [|by injection E as <-]. case_decide; [done|]. injection E as <-. split; [|split; [done|]].
    - destruct Ok. split; cbn; lia.
    - intros x. unfold vis. cbn [arr cn]. intros Hx.
      replace (N.to_nat (limit_arg ps) - 1) with (Nat.min (N.to_nat (limit_arg ps) - 1) (cn cs)) in Hx by lia.
      rewrite <- take_take in Hx. rewrite <- (take_drop (N.to_nat (limit_arg ps) - 1) (take (cn cs) (arr cs))). apply elem_of_app. by left. }
  destruct H as (Ok' & Ea & Hs). apply put_set_inv; [done|rewrite <- (ki_sets _ _ HI); by eapply lookup_lt_Some|done| |].
  - by rewrite Ea.
  - intros x Hx. by apply Hv, Hs.
Qed.

Lemma merge_cuts_inv B t e am n : kinv B t -> is_gate s n -> (N.of_nat (B + max * max) <= 2 ^ 31)%N ->
  wpt True (merge_cuts A c cap stale ps e am n) t (fun _ => kinv (B + max * max)).
Proof.
  intros HI (a & b & Hk & H0 & Hab) HB. unfold merge_cuts. rewrite Hk. apply wpt_bnd. unfold wpt at 1, lift.
  cbn [fst snd]. apply wpt_bnd, get_set_pt. intros cs Hcs. destruct (ki_cuts _ _ HI n cs Hcs) as (Ok & Ha & Hv).
  apply wpt_bnd. unfold wpt at 1, put_set, modify.
  assert (HI1 : kinv B (set_sets A (<[n := CS (stale (arr cs)) 0 0]> (sets A t)) t)).
  { apply put_set_inv; [done|rewrite <- (ki_sets _ _ HI); by eapply lookup_lt_Some| | |].
    - destruct Ok. split; cbn; [by rewrite Hstale|lia].
    - cbn [arr]. intros x. rewrite Hstale. apply Ha.
    - intros x. unfold vis. cbn. intros ?%not_elem_of_nil. done. }
  revert HI1. generalize (set_sets A (<[n := CS (stale (arr cs)) 0 0]> (sets A t)) t). clear t HI cs Hcs Ok Ha Hv. intros t HI.
  assert (Hchild : forall m t, kinv B t -> wpt True (let! b0 := get_best A m in insert_cut A cap e m b0) t (fun _ u => kinv B u)).
  { intros m u HIu. apply wpt_bnd, get_best_pt. intros x Hx. eapply wpt_mono; [apply (insert_cut_inv B); [done|by apply (ki_bests _ _ HIu)]|].
    by intros _ w [? _]. }
  apply wpt_bnd, get_best_pt. intros x0 Hx0. apply wpt_bnd. eapply wpt_mono; [apply (insert_cut_inv B); [done|by apply (ki_bests _ _ HI)]|].
  clear x0 Hx0. intros _ u [HIu _]. clear t HI Hchild.
  apply wpt_bnd, get_best_pt. intros x0 Hx0. apply wpt_bnd. eapply wpt_mono; [apply (insert_cut_inv B); [done|by apply (ki_bests _ _ HIu)]|].
  clear x0 Hx0. intros _ t [HI _]. clear u HIu.
  apply wpt_bnd, get_set_pt. intros l0 Hl0. apply wpt_bnd, get_set_pt. intros l1 Hl1.
  destruct (ki_cuts _ _ HI _ _ Hl0) as (Ok0 & Ha0 & Hv0). destruct (ki_cuts _ _ HI _ _ Hl1) as (Ok1 & Ha1 & Hv1).
  assert (Hin : forall (l : cutset (gdata A)) x, x ∈ vis l -> x ∈ arr l).
  { intros l x Hx. unfold vis in Hx. rewrite <- (take_drop (cn l) (arr l)). apply elem_of_app. by left. }
  assert (G0 : forall x, x ∈ vis l0 -> kgood (sidx a) (tts A t) x) by (intros; apply okc_good; auto).
  assert (G1 : forall x, x ∈ vis l1 -> kgood (sidx b) (tts A t) x) by (intros; apply okc_good; auto).
  set (n0 := length (vis l0)). set (n1 := length (vis l1)).
  assert (Hn0 : n0 <= max) by (unfold n0; unfold vis; rewrite take_length; destruct Ok0; lia).
  assert (Hn1 : n1 <= max) by (unfold n1; unfold vis; rewrite take_length; destruct Ok1; lia).
  assert (Hprod : n0 * n1 <= max * max) by (apply Nat.mul_le_mono; done).
  assert (Hloop : wpt True (foldM (fun nc c1 => foldM (fun nc c2 => kmerge_pair A c cap ps e am n c1 c2 nc) nc (vis l1))
      (Cut [] 0 0 (g0 A)) (vis l0)) t (fun _ u => kinv (B + n0 * n1) u /\ grown t u)).
  { apply (foldM_wpt True _ (fun j _ u => kinv (B + j * n1) u /\ grown t u) (vis l0) 0).
    - intros j nc u c1 Hj Hc1 [HIu Hg]. fold n0 in Hj.
      replace (B + S j * n1) with (B + (j * n1 + length (vis l1))) by (fold n1; lia).
      apply (foldM_wpt True _ (fun j _ u => kinv (B + j) u /\ grown t u) (vis l1) (j * n1)); [|done].
      intros j2 nc2 u2 c2 Hj2 Hc2 [HIu2 Hg2]. fold n1 in Hj2.
      assert (S j * n1 <= n0 * n1) by (apply Nat.mul_le_mono_r; lia).
      eapply wpt_mono; [apply (kmerge_pair_inv (B + j2) u2 e am n a b c1 c2 nc2); try done; [lia|eapply kgood_prefix; [exact Hg2|auto]..]|].
      intros _ w [HIw Hgw]. split; [by rewrite Nat.add_succ_r|by eapply grown_trans].
    - rewrite Nat.add_0_r. split; [done|apply grown_refl]. }
  apply wpt_bnd. eapply wpt_mono; [exact Hloop|]. intros _ u [HIu _].
  assert (HIu' : kinv (B + max * max) u) by (eapply kinv_mono; [|exact HIu]; lia).
  apply wpt_bnd. eapply wpt_mono; [exact (limit_set_keeps n _ u HIu')|cbv beta]. intros _ w HIw.
  apply wpt_bnd, get_set_pt. intros r Hr. apply wpt_bnd, wpt_lift; [done|]. intros f Hf.
  case_decide; [by apply unit_cut_keeps|by apply wpt_ret].
Qed.

Lemma choose_pt B n x t : kinv B t -> okc n (tts A t) x -> wpt True (choose A n x) t (fun _ => kinv B).
Proof. intros HI Hx. apply wpt_bnd, get_best_pt. intros y Hy. unfold wpt, modify. by apply put_best_inv. Qed.
Lemma take_best_pt B n x t : kinv B t -> okc n (tts A t) x -> wpt True (take_best A n x) t (fun _ => kinv B).
Proof.
  intros HI Hx. apply wpt_bnd. eapply wpt_mono; [by apply choose_pt|cbv beta]. intros _ u HIu. by apply (frame_kinv B u).
Qed.
Lemma mapping_and_inv B t p e mode n : kinv B t -> is_gate s n -> (N.of_nat (B + max * max) <= 2 ^ 31)%N -> kcut p = ps ->
  wpt True (mapping_and A c cap stale p e mode n) t (fun _ => kinv (B + max * max)).
Proof.
  intros HI Hn HB Hp. unfold mapping_and. rewrite Hp. apply wpt_bnd. unfold wpt at 1, modify.
  match goal with |- wpt _ _ ?u _ => assert (HI1 : kinv B u) by (apply (frame_kinv B t); [by destruct mode as [|[|]]|done]); revert HI1; generalize u end.
  clear t HI. intros t HI. apply wpt_bnd. eapply wpt_mono; [apply (num_keeps _ (recount_num _ _ _ (fun k x => cut_deref_num _ k x))); exact HI|cbv beta].
  clear t HI. intros _ t HI. apply wpt_bnd. eapply wpt_mono; [by apply merge_cuts_inv|cbv beta]. clear t HI. intros _ t HI.
  apply wpt_bnd, best_of_set_pt. intros cs x Hcs Hx. apply wpt_bnd, wpt_get. apply wpt_bnd.
  apply (wpt_mono _ _ _ (fun _ => kinv (B + max * max))).
  - destruct (_ || _); [|by apply wpt_ret]. apply take_best_pt; [done|]. destruct (ki_cuts _ _ HI n cs Hcs) as (_ & Ha & _). apply Ha.
    by eapply elem_of_list_lookup_2.
  - intros _ u HIu. by apply (num_keeps _ (recount_num _ _ _ (fun k x => cut_ref_num _ k x))).
Qed.

(* n' comes after n in n's class *)
Lemma flip_good n m pn pm ca x : tc (link c) n m -> ph s !! n = Some pn -> ph s !! m = Some pm ->
  kgood m ca x -> kgood n ca (flip A (xorb pn pm) x).
Proof.
  intros Hnm Epn Epm G.
  assert (Hc : Cl n -> Cl m). { clear -Hnm Hclink. induction Hnm as [n m H|n k m H _ IH]; eauto. }
  assert (Hlt : m < n). { clear -Hnm Hlink. induction Hnm as [n m H|n k m H _ IH]; [by apply Hlink|]. apply Hlink in H as [? _]. lia. }
  assert (Hb : forall l, l ∈ lvs x -> l < n) by (intros l Hl; pose proof (kgood_le _ _ _ _ G Hl); lia).
  assert (Hv : forall env v, valuation s env v -> v n = xorb (v m) (xorb pn pm)).
  { intros env v V. clear -Hnm Hlink Epn Epm V. revert pn Epn. induction Hnm as [n m H|n k m H _ IH]; intros pn Epn; [by eapply Hlink|].
    destruct (Hlink n k H) as [Hkn Hk].
    destruct (ph s !! k) as [pk|] eqn:Epk.
    - rewrite (Hk pn pk env v) by done. rewrite (IH Epm pk) by done. by destruct (v m), pn, pk, pm.
    - exfalso. apply lookup_ge_None in Epk. apply lookup_lt_Some in Epn. lia. }
  unfold flip. destruct (xorb pn pm) eqn:Ex.
  - destruct G as [[W1 W2] L C _ Cc (t & Hg & Hw & Hnv & Hf)]. split; cbn [lvs sg fid]; try done; [by right|auto|].
    exists (tt_not t). split; [by apply cache_get_flip|]. split; [by apply not_wf|]. split; [done|]. intros env v V.
    rewrite eval_not by done. rewrite (Hf env v V), (Hv env v V). by rewrite xorb_true_r.
  - destruct G as [W L C _ Cc (t & Hg & Hw & Hnv & Hf)]. split; try done; [by right|auto|].
    exists t. split; [done|]. split; [done|]. split; [done|]. intros env v V. rewrite (Hf env v V), (Hv env v V). by rewrite xorb_false_r.
Qed.

Lemma choice_cut_pt B t e mode n m b x : kinv B t -> okc n (tts A t) (flip A b x) ->
  wpt True (choice_cut A cap e mode n m b x) t (fun _ u => kinv B u /\ tts A u = tts A t).
Proof.
  intros HI Hx. unfold choice_cut. apply wpt_bnd, wpt_get. case_decide; [by apply wpt_ret|]. destruct (_ && _); [by apply wpt_ret|].
  by apply insert_cut_inv.
Qed.
Lemma choice_cuts_pt B e mode n : forall fuel m t, kinv B t -> (forall m', m = Some m' -> tc (link c) n m') ->
  wpt True (choice_cuts A c cap fuel ps e mode n m) t (fun _ => kinv B).
Proof.
  induction fuel as [|fuel IH]; intros m t HI Hm; cbn [choice_cuts]; [done|]. destruct m as [m|]; [|by apply wpt_ret].
  specialize (Hm m eq_refl). apply wpt_bnd, get_set_pt. intros cs Hcs. destruct (ki_cuts _ _ HI m cs Hcs) as (Ok & Ha & Hv).
  apply wpt_bnd, wpt_lift; [done|]. intros e' He'. assert (He2 : forall m', e' = Some m' -> tc (link c) n m').
  { intros m' ->. eapply tc_r; [exact Hm|exact He']. }
  case_decide; [by apply IH|]. apply wpt_bnd, wpt_lift; [done|]. intros pn Hpn. apply wpt_bnd, wpt_lift; [done|]. intros pm Hpm.
  apply wpt_bnd. apply (wpt_mono _ _ _ (fun _ u => kinv B u /\ tts A u = tts A t)).
  - apply (mapM_inv True _ (fun u => kinv B u /\ tts A u = tts A t)); [|done]. intros u x Hx [HIu Et].
    eapply wpt_mono; [apply (choice_cut_pt B); [done|]|].
    + right. rewrite Et. eapply flip_good; [done..|]. apply okc_good; [|by apply Hv]. apply Ha.
      unfold vis in Hx. rewrite <- (take_drop (cn cs) (arr cs)). apply elem_of_app. by left.
    + intros _ w [? E]. split; [done|]. by rewrite E.
  - intros _ u [HIu _]. apply wpt_bnd. eapply wpt_mono; [exact (limit_set_keeps n _ u HIu)|cbv beta]. intros _ w HIw. by apply IH.
Qed.
Lemma mapping_choice_pt B t p e mode n : kinv B t -> kcut p = ps -> wpt True (mapping_choice A c cap p e mode n) t (fun _ => kinv B).
Proof.
  intros HI Hp. unfold mapping_choice. rewrite Hp.
  apply wpt_bnd. eapply wpt_mono; [apply (num_keeps _ (recount_num _ _ _ (fun k x => cut_deref_num _ k x))); exact HI|cbv beta].
  clear t HI. intros _ t HI. apply wpt_bnd, wpt_lift; [done|]. intros m Hm.
  apply wpt_bnd. eapply wpt_mono; [apply (choice_cuts_pt B); [exact HI|]|cbv beta].
  { intros m' ->. by apply tc_once. }
  clear t HI. intros _ t HI. apply wpt_bnd, best_of_set_pt. intros cs x Hcs Hx. apply wpt_bnd, wpt_get. apply wpt_bnd.
  apply (wpt_mono _ _ _ (fun _ => kinv B)).
  - destruct (in_time _ _ _ _ _); [|by apply wpt_ret]. apply take_best_pt; [done|]. destruct (ki_cuts _ _ HI n cs Hcs) as (_ & Ha & _). apply Ha.
    by eapply elem_of_list_lookup_2.
  - intros _ u HIu. apply wpt_bnd. eapply wpt_mono; [exact (unit_cut_keeps n _ u HIu)|cbv beta]. intros _ w HIw.
    by apply (num_keeps _ (recount_num _ _ _ (fun k x => cut_ref_num _ k x))).
Qed.

Lemma is_source_pt n t (Q : bool -> kst A -> Prop) :
  (forall b, (b = false -> is_gate s n) -> (b = true -> is_ci s n = Some true \/ n = 0) -> Q b t) -> wpt True (is_source A c n) t Q.
Proof.
  intros H. unfold is_source. apply wpt_bnd, wpt_lift; [done|]. intros ci Hci. apply wpt_ret, H.
  - intros [-> H0%bool_decide_eq_false]%orb_false_iff. unfold is_ci in Hci. destruct (ks s !! n) as [[a b]|] eqn:E; [|done].
    injection Hci as Hab%bool_decide_eq_false. exists a, b. done.
  - intros [->|H0%bool_decide_eq_true]%orb_true_iff; auto.
Qed.

Lemma round_node_pt B t p e mode n : kinv B t -> (N.of_nat (B + max * max) <= 2 ^ 31)%N -> kcut p = ps ->
  wpt True (round_node A c cap stale p e mode n) t (fun _ => kinv (B + max * max)).
Proof.
  intros HI HB Hp. unfold round_node. apply wpt_bnd, is_source_pt. intros b Hg _. destruct b.
  - apply wpt_ret. eapply kinv_mono; [|done]. lia.
  - apply wpt_bnd. eapply wpt_mono; [by apply mapping_and_inv; auto|cbv beta]. intros _ u HIu. apply wpt_bnd, wpt_lift; [done|].
    intros r Hr. destruct r; [by apply mapping_choice_pt|by apply wpt_ret].
Qed.
Lemma round_pt B t p order ba bf mode : kinv B t -> (N.of_nat (B + length order * (max * max)) <= 2 ^ 31)%N -> kcut p = ps ->
  wpt True (round A c cap stale p order ba bf mode) t (fun _ => kinv (B + length order * (max * max))).
Proof.
  intros HI HB Hp. unfold round. set (e := if _ || _ then _ else _). clearbody e. apply wpt_bnd.
  apply (wpt_mono _ _ _ (fun _ => kinv (B + length order * (max * max)))).
  - apply (mapM_count True _ (fun j => kinv (B + j * (max * max))) order 0); [|by rewrite Nat.add_0_r].
    intros j u n Hj Hn HIu. replace (B + S j * (max * max)) with (B + j * (max * max) + max * max) by lia.
    apply round_node_pt; [done| |done]. assert (S j * (max * max) <= length order * (max * max)) by (apply Nat.mul_le_mono_r; lia). lia.
  - intros _ u HIu. by apply (num_keeps _ (required_times_num _ _)).
Qed.
Lemma rounds_pt B t p order : kinv B t -> (N.of_nat (B + 6 * (length order * (max * max))) <= 2 ^ 31)%N -> kcut p = ps ->
  wpt True (rounds A c cap stale (init_parameters p) order) t (fun _ => kinv (B + 6 * (length order * (max * max)))).
Proof.
  intros HI HB Hp. set (d := length order * (max * max)) in *. unfold rounds. cbn [kPreprocess kArea kFancy kFlowIters kAreaIters init_parameters andb negb repeat].
  set (p' := init_parameters p). assert (Hp' : kcut p' = ps) by done. clearbody p'.
  assert (R : forall i ba bf mode u, i < 6 -> kinv (B + i * d) u -> wpt True (round A c cap stale p' order ba bf mode) u (fun _ => kinv (B + S i * d))).
  { intros i ba bf mode u Hi HIu. replace (B + S i * d) with (B + i * d + d) by lia. apply round_pt; [done| |done]. fold d.
    assert (S i * d <= 6 * d) by (apply Nat.mul_le_mono_r; lia). lia. }
  assert (Z : forall i u, kinv (B + i * d) u -> wpt True (reset_refs A c) u (fun _ => kinv (B + i * d))) by (intros; by apply (num_keeps _ reset_refs_num)).
  apply wpt_bnd. apply wpt_bnd. eapply wpt_mono; [apply (R 0); [lia|by rewrite Nat.add_0_r]|cbv beta]. clear t HI. intros _ t HI.
  apply wpt_bnd. eapply wpt_mono; [by apply Z|cbv beta]. clear t HI. intros _ t HI.
  apply wpt_bnd. eapply wpt_mono; [by apply (R 1); [lia|]|cbv beta]. clear t HI. intros _ t HI.
  apply wpt_bnd. eapply wpt_mono; [by apply Z|cbv beta]. clear t HI. intros _ t HI.
  apply wpt_bnd. eapply wpt_mono; [by apply (R 2); [lia|]|cbv beta]. clear t HI. intros _ t HI.
  assert (L : forall i mode k u, i + k <= 6 -> kinv (B + i * d) u -> wpt True (mapM (round A c cap stale p' order false false) (repeat mode k)) u (fun _ => kinv (B + (i + k) * d))).
  { intros i mode k u Hi HIu. replace (i + k) with (i + length (repeat mode k)) by (by rewrite repeat_length).
    apply (mapM_count True _ (fun j => kinv (B + j * d)) (repeat mode k) i); [|done]. intros j w y Hj _ HIw. rewrite repeat_length in Hj. apply R; [lia|done]. }
  apply wpt_bnd. eapply wpt_mono; [by apply (L 3 1 1); [lia|]|cbv beta]. clear t HI. intros _ t HI.
  eapply wpt_mono; [by apply (L 4 2 2); [lia|]|cbv beta]. clear t HI. intros _ t HI. exact HI.
Qed.

Lemma kst_init_inv : kinv 2 (kst_init A c max).
Proof.
  split; cbn [kst_init sets best tts].
  - apply repeat_length.
  - apply repeat_length.
  - cbn [st_init snd]. assert (H1 : cinv (cache_insert (tt_const 0 false) cache_empty).2).
    { eapply insert_spec; [apply cinv_empty|apply const_wf|apply surjective_pairing|vm_compute; congruence]. }
    eapply insert_spec; [exact H1|apply var_wf|apply surjective_pairing|vm_compute; congruence].
  - vm_compute. reflexivity.
  - vm_compute. lia.
  - intros n cs Hcs. apply elem_of_list_lookup_2, elem_of_list_In, repeat_spec in Hcs as ->. unfold cs_new. split; [|split].
    + split; cbn; [by rewrite repeat_length|lia].
    + cbn [arr]. intros x Hx%elem_of_list_In%repeat_spec. subst. by left.
    + unfold vis. cbn. intros x ?%not_elem_of_nil. done.
  - intros n x Hx. apply elem_of_list_lookup_2, elem_of_list_In, repeat_spec in Hx as ->. by left.
Qed.
Lemma init_leaf_keeps n : keeps (init_leaf A cap n).
Proof.
  intros B t HI. unfold init_leaf. apply wpt_bnd. eapply wpt_mono; [exact (unit_cut_keeps n B t HI)|cbv beta]. clear t HI. intros _ t HI.
  apply wpt_bnd, best_of_set_pt. intros cs x Hcs Hx. apply wpt_bnd. eapply wpt_mono; [apply (choose_pt B n x t HI)|cbv beta].
  - destruct (ki_cuts _ _ HI n cs Hcs) as (_ & Ha & _). apply Ha. by eapply elem_of_list_lookup_2.
  - intros _ u HIu. unfold wpt, modify. apply (frame_kinv B u); [done|exact HIu].
Qed.
Lemma map_rounds_inv p order t : map_rounds A c cap max stale p = Some (order, t) -> kcut p = ps ->
  (forall o, topologize c = Some o -> length o = size s) -> (N.of_nat (2 + 6 * (size s * (max * max))) <= 2 ^ 31)%N ->
  topologize c = Some order /\ kinv (2 + 6 * (size s * (max * max))) t.
Proof.
  unfold map_rounds. intros E Hp Ho HB.
  destruct (mapM (init_leaf A cap) (0 :: ins s) (kst_init A c max)) as [[q t0]|] eqn:E0; cbn [mbind option_bind] in E; [|done].
  destruct (topologize c) as [o|] eqn:Eo; cbn [mbind option_bind] in E; [|done].
  destruct (rounds A c cap stale (init_parameters p) o t0) as [[r t1]|] eqn:E1; cbn [mbind option_bind] in E; [|done].
  injection E as -> ->. split; [done|].
  assert (HI0 : kinv 2 t0).
  { apply (wpt_some True _ _ _ _ (fun _ => kinv 2)) with (2 := E0). apply (mapM_inv True _ (kinv 2)); [|apply kst_init_inv]. intros u x _ HIu. by apply init_leaf_keeps. }
  specialize (Ho _ eq_refl). rewrite <- Ho in *. exact (wpt_some True _ _ _ _ (fun _ => kinv _) (rounds_pt 2 t0 p order HI0 HB Hp) E1).
Qed.

(* ---- marking and the final cells ---- *)
Definition source (n : nat) : Prop := is_ci s n = Some true \/ n = 0.
Definition marks (t u : kst A) : Prop := frame t u /\ (forall x, 0 < refs A t x -> 0 < refs A u x) /\
  forall x, 0 < refs A u x -> refs A t x = 0 ->
    Cl x /\ (source x \/ exists y, best A t !! x = Some y /\ forall l, l ∈ lvs y -> 0 < refs A u l).
Lemma marks_refl t : marks t t.
Proof. split; [apply frame_refl|]. split; [done|]. lia. Qed.
Lemma marks_trans t u w : marks t u -> marks u w -> marks t w.
Proof.
  intros (F1 & M1 & N1) (F2 & M2 & N2). split; [exact (frame_trans _ _ _ F1 F2)|]. split; [auto|]. intros x Hx H0.
  destruct (decide (0 < refs A u x)) as [Hu|Hu].
  - destruct (N1 x Hu H0) as [Hc [Hs|(y & Hy & Hl)]]; [auto|]. split; [done|]. right. exists y. split; [done|]. auto.
  - destruct (N2 x Hx ltac:(lia)) as [Hc Hs]. split; [done|]. destruct F1 as (_ & -> & _) in Hs. done.
Qed.
Lemma mark_ref_pt B : forall fuel n t, kinv B t -> Cl n -> wpt True (mark_ref A c fuel n) t (fun _ u => marks t u /\ 0 < refs A u n).
Proof.
  induction fuel as [|fuel IH]; intros n t HI Hn; cbn [mark_ref]; [done|].
  assert (Hupd : forall k, frame t (set_refs A (Mapping.upd n k (refs A t)) t)) by done.
  apply wpt_bnd, wpt_get. apply wpt_bnd. unfold wpt at 1, set_ref, modify.
  apply wpt_bnd, is_source_pt. intros b Hb1 Hb2. destruct (bool_decide (0 < refs A t n) || b) eqn:Eb.
  - apply wpt_ret. cbn [set_refs refs]. split; [|unfold Mapping.upd; rewrite decide_True by done; lia]. split; [apply Hupd|]. cbn [set_refs refs]. split.
    + intros x Hx. unfold Mapping.upd. destruct (decide (x = n)); lia.
    + intros x. unfold Mapping.upd. destruct (decide (x = n)) as [Hxn|]; [|lia]. subst x. intros _ H0. split; [done|]. left.
      rewrite bool_decide_false in Eb by lia. apply Hb2. by destruct b.
  - apply orb_false_iff in Eb as [E0%bool_decide_eq_false ->]. apply wpt_bnd. unfold wpt at 1, set_ref, modify. cbn [set_refs refs].
    set (t1 := set_refs A _ (set_refs A _ t)). assert (F1 : frame t t1) by done.
    assert (R1 : forall x, refs A t1 x = if decide (x = n) then S (S (refs A t n)) else refs A t x).
    { intros x. unfold t1. cbn [set_refs refs]. unfold Mapping.upd. by repeat case_decide. }
    clearbody t1. apply wpt_bnd, get_best_pt. intros x Hx. pose proof (frame_kinv _ _ _ F1 HI) as HI1.
    assert (Hbx : best A t !! n = Some x) by (destruct F1 as (_ & <- & _); done).
    assert (HL : forall l, l ∈ lvs x -> Cl l).
    { destruct (ki_bests _ _ HI n x Hbx) as [E|G]; [rewrite E; intros l ?%not_elem_of_nil; done|]. by apply (kg_cl _ _ _ G). }
    assert (Hfold : forall l, (forall y, y ∈ l -> Cl y) -> forall u, kinv B u ->
      wpt True (mapM (mark_ref A c fuel) l) u (fun _ w => marks u w /\ forall y, y ∈ l -> 0 < refs A w y)).
    { induction l as [|y l IHl]; intros Hl u HIu; cbn [mapM].
      - apply wpt_ret. split; [apply marks_refl|]. intros y ?%not_elem_of_nil. done.
      - apply wpt_bnd. eapply wpt_mono; [apply IH; [exact HIu|apply Hl; by left]|]. intros ? w [Mw Hw].
        apply wpt_bnd. eapply wpt_mono; [apply IHl; [intros; apply Hl; by right|exact (frame_kinv _ _ _ (proj1 Mw) HIu)]|].
        intros ? w' [Mw' Hw']. apply wpt_ret. split; [exact (marks_trans _ _ _ Mw Mw')|]. intros z [->|Hz]%elem_of_cons; [|auto].
        by apply Mw'. }
    apply wpt_bnd. eapply wpt_mono; [apply (Hfold (lvs x) HL t1 HI1)|]. intros _ w [(Fw & Mw & Nw) Hw]. apply wpt_ret.
    split; [|apply Mw; rewrite R1, decide_True by done; lia]. split; [exact (frame_trans _ _ _ F1 Fw)|]. split.
    + intros y Hy. apply Mw. rewrite R1. case_decide; lia.
    + intros y Hy H0. destruct (decide (y = n)) as [->|Hne].
      * split; [done|]. right. eauto.
      * destruct (Nw y Hy) as [Hc Hs]; [by rewrite R1, decide_False|]. split; [done|]. destruct F1 as (_ & <- & _). done.
Qed.
End klut.
