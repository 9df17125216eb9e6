From stdpp Require Import sorting.
From Verif Require Import Base Aig AigSem AigHash AigProofs AigApi NetProofs Cnf CnfProofs ConvertProofs Choice ChoiceSat ChoiceCompute ChoiceComputeProofs
  ChoiceClasses ChoiceClassesProofs ChoiceRefineProofs.

(* ---- words ---- *)
Definition small (x : N) : Prop := forall j, (64 <= j)%N -> N.testbit x j = false.
Lemma wnot_wnot x : wnot (wnot x) = x.
Proof. unfold wnot. by rewrite N.lxor_assoc, N.lxor_nilpotent, N.lxor_0_r. Qed.
Lemma wnot_bit x j : (j < 64)%N -> N.testbit (wnot x) j = negb (N.testbit x j).
Proof. intros H. unfold wnot. rewrite N.lxor_spec, N.ones_spec_low by done. by rewrite xorb_true_r. Qed.
Lemma wnot_small x : small x -> small (wnot x).
Proof. intros H j Hj. unfold wnot. rewrite N.lxor_spec, N.ones_spec_high by done. by rewrite (H j Hj). Qed.
Definition wif (c : bool) (x : N) : N := if c then wnot x else x.
Lemma wif_bit c x j : (j < 64)%N -> N.testbit (wif c x) j = xorb (N.testbit x j) c.
Proof. intros H. destruct c; cbn [wif]; [by rewrite wnot_bit, xorb_true_r|by rewrite xorb_false_r]. Qed.
Lemma wif_small c x : small x -> small (wif c x).
Proof. intros H. destruct c; [by apply wnot_small|done]. Qed.
Lemma small_eq x y : small x -> small y -> (forall j, (j < 64)%N -> N.testbit x j = N.testbit y j) -> x = y.
Proof.
  intros Hx Hy H. apply N.bits_inj. intros j. destruct (N.lt_ge_cases j 64) as [Hj|Hj]; [by apply H|]. by rewrite Hx, Hy.
Qed.

Lemma foldl_zip_map {A} (f g : A -> nat * N -> A) (t : N -> N) l x h : (forall h k y, f h (k, y) = g h (k, t y)) ->
  foldl f h (zip l x) = foldl g h (zip l (map t x)).
Proof.
  intros H. revert x h. induction l as [|k l IH]; intros [|a x] h; try done. cbn [zip zip_with foldl map]. rewrite H. apply IH.
Qed.
(* bit j of word i of node n *)
Definition bit (sims : list (list N)) (i : nat) (j : N) (n : nat) : bool :=
  match sims !! n with Some w => match w !! i with Some x => N.testbit x j | None => false end | None => false end.

Section simulation.
Context (rnd : nat -> N) (nw : nat) (s : aig) (P : swept s) (Hnw : 0 < nw).

Record rows (sims : list (list N)) : Prop := {
  rw_len : length sims = size s;
  rw_row : forall n w, sims !! n = Some w -> length w = nw /\ forall x, x ∈ w -> small x
}.

Lemma rows_bit sims n i j : rows sims -> n < size s -> i < nw -> exists w x, sims !! n = Some w /\ w !! i = Some x /\ bit sims i j n = N.testbit x j.
Proof using All.
  intros R Hn Hi. destruct (lookup_lt_is_Some_2 sims n) as [w E]; [by rewrite (rw_len _ R)|].
  destruct (lookup_lt_is_Some_2 w i) as [x Ex]; [by rewrite (proj1 (rw_row _ R n w E))|]. exists w, x. split; [done|]. split; [done|].
  unfold bit. by rewrite E, Ex.
Qed.
Lemma rows_insert sims n w : rows sims -> length w = nw -> (forall x, x ∈ w -> small x) -> rows (<[n := w]> sims).
Proof using All.
  intros R Hl Hs. split; [rewrite insert_length; apply R|]. intros m w' E. destruct (decide (m = n)) as [->|Hm].
  - destruct (decide (n < length sims)) as [Hlt|Hlt].
    + rewrite list_lookup_insert in E by done. injection E as <-. done.
    + rewrite list_insert_ge in E by lia. by apply (rw_row _ R n).
  - rewrite list_lookup_insert_ne in E by done. by apply (rw_row _ R m).
Qed.
Lemma bit_other sims n w i j m : m <> n -> bit (<[n := w]> sims) i j m = bit sims i j m.
Proof using. intros H. unfold bit. by rewrite list_lookup_insert_ne by done. Qed.

Lemma random_simulation_spec k : exists sims k', random_simulation rnd nw s k = Some (sims, k') /\ rows sims /\
  forall i j, i < nw -> (j < 64)%N -> exists env, forall v, valuation s env v -> forall n, n < size s -> bit sims i j n = v n.
Proof using All.
  unfold random_simulation.
  destruct (each_total (sim_ci rnd nw) (fun p d => rows d.1 /\ forall i j, bit d.1 i j 0 = false) (ins s) (repeat (repeat 0%N nw) (size s), k)) as ([sims k'] & E & R & H0).
  { cbn [fst]. split.
    - split; [apply repeat_length|]. intros n w E. apply elem_of_list_lookup_2, elem_of_list_In, repeat_spec in E as ->.
      split; [apply repeat_length|]. intros x Hx%elem_of_list_In%repeat_spec. subst x. intros j _. apply N.bits_0.
    - intros i j. unfold bit. destruct (_ !! 0) as [w|] eqn:E; [|done]. apply elem_of_list_lookup_2, elem_of_list_In, repeat_spec in E as ->.
      destruct (_ !! i) as [x|] eqn:E; [|done]. apply elem_of_list_lookup_2, elem_of_list_In, repeat_spec in E as ->. apply N.bits_0. }
  { intros p n q [sims k0] El [R H0]. cbn [fst] in *. unfold sim_ci. cbn [fst snd].
    destruct nw as [|nw'] eqn:En; [lia|]. rewrite <- En in *. cbn [seq map] in *.
    assert (Hn : n ∈ ins s) by (rewrite El; apply elem_of_app; right; apply elem_of_list_here).
    pose proof (net_ins_valid _ (sp_net _ P)) as Hv. rewrite Forall_forall in Hv. specialize (Hv n Hn). cbn in Hv.
    destruct (lookup_lt_is_Some_2 sims n) as [w0 Ew]; [by rewrite (rw_len _ R)|].
    rewrite En. cbn [seq map]. rewrite Ew. cbn [mbind option_bind]. eexists. split; [reflexivity|]. cbn [fst]. split.
    - apply rows_insert; [done| |].
      + cbn [length]. rewrite map_length, seq_length. by rewrite En.
      + intros x Hx. apply elem_of_cons in Hx as [->|Hx].
        * intros j Hj. by apply N.mod_pow2_bits_high.
        * apply elem_of_list_In, in_map_iff in Hx as (i & <- & _). intros j Hj. apply N.mod_pow2_bits_high. lia.
    - intros i j. rewrite bit_other; [done|]. pose proof (net_ins_nodup _ (sp_net _ P)) as Hd. apply NoDup_cons in Hd as [Hd _]. by intros <-. }
  rewrite E. cbn [mbind option_bind fst snd]. clear E.
  destruct (gates_spec s (sp_net _ P) (sp_live _ P)) as (gs & Eg & Hd & Hg). rewrite Eg. cbn [mbind option_bind].
  destruct (each_total (sim_gate s) (fun p sims' => rows sims' /\ (forall n, n ∉ p -> sims' !! n = sims !! n) /\
     forall i j, i < nw -> (j < 64)%N -> forall n a b, n ∈ p -> ks s !! n = Some (a, b) -> bit sims' i j n = sval (bit sims' i j) a && sval (bit sims' i j) b) gs sims) as (sims' & E & R' & Hsame & Hv).
  { split; [done|]. split; [done|]. intros i j _ _ n a b Hn. by apply elem_of_nil in Hn. }
  { intros p n q sims' El (R' & Hsame & Hv). unfold sim_gate.
    assert (Hgn : is_gate s n) by (apply Hg; rewrite El; apply elem_of_app; right; apply elem_of_list_here).
    assert (Hnp : n ∉ p). { rewrite El in Hd. apply NoDup_app in Hd as (_ & Hd & _). intros Hn. by apply (Hd n Hn), elem_of_list_here. }
    pose proof Hgn as (a & b & Ek & Hn0 & Hab). rewrite Ek. cbn [mbind option_bind fst snd].
    pose proof (lookup_lt_Some _ _ _ Ek) as Hns. fold (size s) in Hns. destruct (gate_fanins s P n a b Ek Hgn) as [La Lb].
    destruct (lookup_lt_is_Some_2 sims' (sidx a)) as [wa Ea]; [rewrite (rw_len _ R'); lia|].
    destruct (lookup_lt_is_Some_2 sims' (sidx b)) as [wb Eb]; [rewrite (rw_len _ R'); lia|].
    destruct (lookup_lt_is_Some_2 sims' n) as [wn En]; [rewrite (rw_len _ R'); lia|]. rewrite Ea, Eb, En. cbn [mbind option_bind].
    destruct (rw_row _ R' _ _ Ea) as [Hla Hsa]. destruct (rw_row _ R' _ _ Eb) as [Hlb Hsb].
    eexists. split; [reflexivity|]. split; [|split].
    - apply rows_insert; [done| |].
      + rewrite zip_with_length. lia.
      + intros x (i & Hx)%elem_of_list_lookup. apply lookup_zip_with_Some in Hx as (y & z & -> & Hy & Hz). intros j Hj.
        rewrite N.land_spec. change (if scompl a then wnot y else y) with (wif (scompl a) y).
        rewrite (wif_small (scompl a) y) by (try done; apply Hsa; by eapply elem_of_list_lookup_2). done.
    - intros m Hm. rewrite list_lookup_insert_ne; [apply Hsame; set_solver|]. intros ->. apply Hm, elem_of_app. right. by apply elem_of_list_singleton.
    - intros i j Hi Hj m c d Hm Em. apply elem_of_app in Hm as [Hm|Hm%elem_of_list_singleton].
      + assert (m <> n) by (by intros ->). rewrite bit_other by done. rewrite (Hv i j Hi Hj m c d Hm Em).
        assert (Hgm : is_gate s m) by (apply Hg; rewrite El; apply elem_of_app; by left).
        destruct (gate_fanins s P m c d Em Hgm) as [Lc Ld].
        assert (m < n) by (by eapply gates_earlier).
        unfold sval. rewrite !bit_other by lia. done.
      + subst m. rewrite Em in Ek. injection Ek as -> ->. unfold sval. rewrite (bit_other sims' n _ i j (sidx a)), (bit_other sims' n _ i j (sidx b)) by lia.
        unfold bit. rewrite list_lookup_insert by (rewrite (rw_len _ R'); lia). rewrite Ea, Eb. rewrite lookup_zip_with.
        destruct (lookup_lt_is_Some_2 wa i) as [x Ex]; [lia|]. destruct (lookup_lt_is_Some_2 wb i) as [y Ey]; [lia|].
        rewrite Ex, Ey. cbn [mbind option_bind]. rewrite N.land_spec. by rewrite <- !wif_bit. }
  rewrite E. cbn [mbind option_bind]. exists sims', k'. split; [done|]. split; [done|]. intros i j Hi Hj.
  exists (fun k => bit sims i j (S k)). intros v V.
  assert (Hin : forall n, n ∈ ins s -> n ∉ gs). { intros n Hn Hn'%Hg. by apply (swept_not_gate s P n). }
  intros n. induction (lt_wf n) as [n _ IH]. intros Hn. destruct (decide (n = 0)) as [->|Hn0].
  { rewrite (val_const _ _ _ V). unfold bit. rewrite Hsame; [apply (H0 i j)|]. intros H%Hg. by destruct H as (? & ? & ? & ? & ?). }
  destruct (lookup_lt_is_Some_2 (ks s) n) as [[a b] Ek]; [done|]. destruct (decide (a = b)) as [->|Hab].
  - destruct (net_ci _ (sp_net _ P) n b Ek) as [|Hni]; [done|]. pose proof Hni as [k0 Hk]%elem_of_list_lookup.
    rewrite (val_input _ _ _ V k0 n Hk). pose proof (swept_in s P _ _ Hk) as ->. unfold bit at 1. rewrite Hsame by (by apply Hin). done.
  - assert (Hgn : is_gate s n) by (by exists a, b). rewrite (Hv i j Hi Hj n a b) by (try done; by apply Hg).
    rewrite (val_gate _ _ _ V n a b Ek Hn0 Hab). destruct (gate_fanins s P n a b Ek Hgn) as [La Lb]. unfold sval.
    rewrite !IH by lia. done.
Qed.

(* what equal and node_hash look at: the words of a node, relative to its phase *)
Definition norm (sims : list (list N)) (n : nat) : list N :=
  match sims !! n, ph s !! n with Some w, Some p => map (wif p) w | _, _ => [] end.

Lemma swept_ph n : n < size s -> is_Some (ph s !! n).
Proof using P.
  intros Hn. destruct (net_valuation s (fun _ => false) (sp_net _ P)) as [v V]. rewrite (sp_phase _ P n v Hn V). by eexists.
Qed.
Lemma equal_spec sims n m : rows sims -> n < size s -> m < size s -> equal s sims n m = Some (bool_decide (norm sims n = norm sims m)).
Proof using All.
  intros R Hn Hm. unfold equal, norm. destruct (swept_ph n Hn) as [p Ep]. destruct (swept_ph m Hm) as [q Eq].
  destruct (lookup_lt_is_Some_2 sims n) as [x Ex]; [by rewrite (rw_len _ R)|]. destruct (lookup_lt_is_Some_2 sims m) as [y Ey]; [by rewrite (rw_len _ R)|].
  rewrite Ex, Ey, Ep, Eq. cbn [mbind option_bind]. f_equal.
  assert (L : length x = length y) by (rewrite (proj1 (rw_row _ R _ _ Ex)), (proj1 (rw_row _ R _ _ Ey)); done). clear -L.
  revert y L. induction x as [|a x IH]; intros [|b y] L; try done. cbn [zip zip_with forallb map]. cbn in L. fold (zip x y). rewrite IH by lia.
  assert (K : (if xorb p q then bool_decide (a = wnot b) else bool_decide (a = b)) = bool_decide (wif p a = wif q b)).
  { destruct p, q; cbn [xorb wif]; apply bool_decide_ext.
    - split; [by intros ->|]. intros E. by rewrite <- (wnot_wnot a), E, wnot_wnot.
    - split; [intros ->; by rewrite wnot_wnot|]. intros <-. by rewrite wnot_wnot.
    - done.
    - done. }
  rewrite K. rewrite <- bool_decide_and. apply bool_decide_ext. split; [by intros [-> ->]|by intros [= -> ->]].
Qed.
Lemma node_hash_spec sims n : rows sims -> n < size s ->
  node_hash nw s sims n = Some (foldl (fun h '(k, x) => N.lxor h ((x * nth (k mod 128) fprimes 0) mod 2 ^ 32)) 0 (zip (seq 0 nw) (norm sims n)))%N.
Proof using All.
  intros R Hn. unfold node_hash, norm. destruct (swept_ph n Hn) as [p Ep]. destruct (lookup_lt_is_Some_2 sims n) as [x Ex]; [by rewrite (rw_len _ R)|].
  rewrite Ex, Ep. cbn [mbind option_bind]. f_equal. by apply foldl_zip_map.
Qed.
Definition faithful (sims : list (list N)) : Prop := forall n m, n < size s -> m < size s -> alike s n m -> norm sims n = norm sims m.
Lemma simulation_faithful k : exists sims k', random_simulation rnd nw s k = Some (sims, k') /\ rows sims /\ faithful sims.
Proof using All.
  destruct (random_simulation_spec k) as (sims & k' & E & R & H). exists sims, k'. split; [done|]. split; [done|].
  intros n m Hn Hm Ha. unfold norm. destruct (swept_ph n Hn) as [p Ep]. destruct (swept_ph m Hm) as [q Eq].
  destruct (lookup_lt_is_Some_2 sims n) as [x Ex]; [by rewrite (rw_len _ R)|]. destruct (lookup_lt_is_Some_2 sims m) as [y Ey]; [by rewrite (rw_len _ R)|].
  rewrite Ex, Ey, Ep, Eq. destruct (rw_row _ R _ _ Ex) as [Lx Sx]. destruct (rw_row _ R _ _ Ey) as [Ly Sy].
  apply list_eq_same_length with nw; [by rewrite map_length|by rewrite map_length|].
  intros i a b Hi Ea Eb. rewrite list_lookup_fmap in Ea. rewrite list_lookup_fmap in Eb.
  destruct (x !! i) as [a'|] eqn:Ea'; [|done]. destruct (y !! i) as [b'|] eqn:Eb'; [|done]. cbn in Ea, Eb. injection Ea as <-. injection Eb as <-.
  apply small_eq; [apply wif_small, Sx; by eapply elem_of_list_lookup_2|apply wif_small, Sy; by eapply elem_of_list_lookup_2|].
  intros j Hj. rewrite !wif_bit by done. destruct (H i j Hi Hj) as [env He]. destruct (net_valuation s env (sp_net _ P)) as [v V].
  pose proof (He v V n Hn) as Hbn. pose proof (He v V m Hm) as Hbm. unfold bit in Hbn, Hbm. rewrite Ex, Ea' in Hbn. rewrite Ey, Eb' in Hbm.
  rewrite Hbn, Hbm. rewrite (alike_phase s n m p q P Hn Hm Ep Eq Ha env v V). by destruct (v m), p, q.
Qed.
End simulation.

Lemma list_filter_iff' {A} (Q Q' : A -> Prop) `{forall x, Decision (Q x)} `{forall x, Decision (Q' x)} (l : list A) :
  (forall x, x ∈ l -> Q x <-> Q' x) -> filter Q l = filter Q' l.
Proof.
  induction l as [|a l IH]; intros H1; [done|]. rewrite !filter_cons.
  assert (E : filter Q l = filter Q' l) by (apply IH; intros x Hx; apply H1; by apply elem_of_list_further).
  pose proof (H1 a (elem_of_list_here _ _)) as Ha. destruct (decide (Q a)), (decide (Q' a)); try tauto; by rewrite E.
Qed.

Section classes.
Context (rnd : nat -> N) (nw : nat) (s : aig) (P : swept s) (Hl : living s) (Hnw : 0 < nw).

Lemma together_keep sims c c' : together s c -> faithful s sims ->
  (forall n m, norm s sims n = norm s sims m -> c_reprs c !! n = c_reprs c !! m -> c_reprs c' !! n = c_reprs c' !! m) -> together s c'.
Proof using All. intros T F H n m Hn Hm Ha. apply H; [by apply F|by apply T]. Qed.

Lemma refine_classes_spec sims rec c : rows nw s sims -> grouped (size s) c ->
  exists c', refine_classes s sims rec c = Some c' /\ grouped (size s) c' /\ uniform (norm s sims) c' /\
    forall n m, norm s sims n = norm s sims m -> c_reprs c !! n = c_reprs c !! m -> c_reprs c' !! n = c_reprs c' !! m.
Proof using All.
  intros R G. unfold refine_classes. rewrite (gr_ids _ _ G). apply (refine_all (norm s sims) (size s)); [|done]. clear c G.
  intros i c G Hi. unfold refine_class. destruct (lookup_lt_is_Some_2 (c_ids c) i) as [l El]; [by rewrite (gr_ids _ _ G)|].
  rewrite El. cbn [mbind option_bind]. destruct (decide (c_reprs c !! i = Some i)) as [Er|Er].
  - assert (i ∈ l) as Hil by (by apply (class_elem _ c i l i G El)). destruct l as [|a l]; [by apply elem_of_nil in Hil|].
    destruct (refine_one_class_spec (norm s sims) (size s) (equal s sims) rec (S (length (a :: l))) c i (a :: l) G Er El) as (k & c' & E & F); [lia| |].
    { intros n m Hn Hm. eapply equal_spec; eauto. }
    rewrite E. cbn [mbind option_bind]. exists c'. split; [done|]. split; [by exists k|done].
  - destruct l as [|a l]; [by exists c|]. exfalso. apply Er. assert (a ∈ a :: l) as Ha by apply elem_of_list_here.
    apply (class_elem _ c i _ a G El) in Ha. by apply (gr_repr _ _ G) in Ha as [_ ?].
Qed.

Lemma live_nodes_spec : live_nodes s = Some (seq 0 (size s)).
Proof using All.
  unfold live_nodes. rewrite sieve_spec.
  - f_equal. clear -Hl. assert (H : forall n, n ∈ seq 0 (size s) -> (d ← is_dead s n; Some (negb d)) = Some true).
    { intros n Hn%elem_of_seq. rewrite Hl by lia. done. }
    revert H. generalize (seq 0 (size s)). intros l. induction l as [|a l IH]; intros H; [done|]. rewrite filter_cons_True by (apply H, elem_of_list_here).
    f_equal. apply IH. intros n Hn. apply H. by apply elem_of_list_further.
  - intros n Hn%elem_of_seq. rewrite Hl by lia. by eexists.
Qed.

Definition slot (sims : list (list N)) (hs n : nat) : nat := N.to_nat (default 0%N (node_hash nw s sims n) mod N.of_nat hs)%N.

Record entered (sims : list (list N)) (hs k : nat) (d : list (option nat) * classes) : Prop := {
  en_table : length d.1 = hs;
  en_len : length (c_reprs d.2) = size s;
  en_ids : length (c_ids d.2) = size s;
  en_repr : forall n r, n < k -> c_reprs d.2 !! n = Some r -> r <= n /\ c_reprs d.2 !! r = Some r;
  en_rest : forall n, k <= n -> n < size s -> c_reprs d.2 !! n = Some n;
  en_class : forall r, r < size s -> c_ids d.2 !! r = Some (filter (fun n => c_reprs d.2 !! n = Some r) (seq 0 k));
  en_slot : forall n, n < k -> d.1 !! slot sims hs n = Some (c_reprs d.2 !! n);
  en_root : forall i r, d.1 !! i = Some (Some r) -> r < k /\ slot sims hs r = i
}.

Lemma filter_seq_S (Q : nat -> Prop) `{forall x, Decision (Q x)} k : filter Q (seq 0 (S k)) = filter Q (seq 0 k) ++ (if decide (Q k) then [k] else []).
Proof. rewrite seq_S, filter_app. cbn [Nat.add]. f_equal. Qed.

Lemma enter_spec sims hs k d : rows nw s sims -> 0 < hs -> k < size s -> entered sims hs k d -> exists d', enter nw s sims hs k d = Some d' /\ entered sims hs (S k) d'.
Proof using All.
  intros R Hh Hk I. destruct d as [table c]. unfold enter.
  destruct (node_hash nw s sims k) as [h|] eqn:Eh; [|by rewrite node_hash_spec in Eh]. cbn [mbind option_bind].
  assert (Es : slot sims hs k = N.to_nat (h mod N.of_nat hs)%N) by (unfold slot; by rewrite Eh). rewrite <- Es.
  assert (Hlt : forall n, slot sims hs n < hs).
  { intros n. unfold slot. pose proof (N.mod_lt (default 0%N (node_hash nw s sims n)) (N.of_nat hs) ltac:(lia)). lia. }
  destruct I as [It Il Ii Ir Ie Ic Isl Iro]. cbn [fst snd] in *.
  destruct (lookup_lt_is_Some_2 table (slot sims hs k)) as [o Eo]; [rewrite It; apply Hlt|]. rewrite Eo. cbn [mbind option_bind].
  assert (Ekk : c_reprs c !! k = Some k) by (by apply Ie).
  destruct o as [r|].
  - destruct (Iro _ _ Eo) as [Hr Hsr]. assert (Err : c_reprs c !! r = Some r).
    { pose proof (Isl r Hr) as E. rewrite Hsr, Eo in E. by injection E as <-. }
    rewrite (Ic r) by lia. cbn [mbind option_bind].
    assert (Hne : forall n, n <> k -> <[k := r]> (c_reprs c) !! n = c_reprs c !! n) by (intros n Hn; by rewrite list_lookup_insert_ne by done).
    assert (Hk' : <[k := r]> (c_reprs c) !! k = Some r) by (apply list_lookup_insert; lia).
    eexists. split; [reflexivity|]. split; cbn [fst snd c_reprs c_ids].
    + done.
    + by rewrite insert_length.
    + by rewrite insert_length.
    + intros n x Hn E. destruct (decide (n = k)) as [->|Hnk].
      * rewrite Hk' in E. injection E as <-. split; [lia|]. rewrite Hne by lia. done.
      * rewrite Hne in E by done. destruct (Ir n x) as [H1 H2]; [lia|done|]. split; [done|]. rewrite Hne by lia. done.
    + intros n H1 H2. rewrite Hne by lia. apply Ie; lia.
    + intros x Hx. rewrite filter_seq_S.
      assert (Ef : forall y, filter (fun n => <[k := r]> (c_reprs c) !! n = Some y) (seq 0 k) = filter (fun n => c_reprs c !! n = Some y) (seq 0 k)).
      { intros y. apply list_filter_iff'. intros n Hn%elem_of_seq. rewrite Hne by lia. done. }
      rewrite Ef. destruct (decide (x = r)) as [->|Hxr].
      * rewrite list_lookup_insert by lia. rewrite decide_True by done. done.
      * rewrite list_lookup_insert_ne by done. rewrite decide_False by (rewrite Hk'; by intros [= ->]). rewrite app_nil_r. by apply Ic.
    + intros n Hn. destruct (decide (n = k)) as [->|Hnk]; [by rewrite Hk'|]. rewrite Hne by done. apply Isl. lia.
    + intros i x E. destruct (Iro i x E). split; [lia|done].
  - rewrite (Ic k) by lia. cbn [mbind option_bind].
    assert (Hf : forall n, n < k -> slot sims hs n <> slot sims hs k).
    { intros n Hn E. pose proof (Isl n Hn) as E'. rewrite E, Eo in E'. injection E' as E'. destruct (lookup_lt_is_Some_2 (c_reprs c) n) as [x Ex]; [lia|]. congruence. }
    eexists. split; [reflexivity|]. split; cbn [fst snd c_reprs c_ids].
    + by rewrite insert_length.
    + done.
    + by rewrite insert_length.
    + intros n x Hn E. destruct (decide (n = k)) as [->|Hnk].
      * rewrite Ekk in E. injection E as <-. done.
      * apply Ir; [lia|done].
    + intros n H1 H2. apply Ie; lia.
    + intros x Hx. rewrite filter_seq_S. destruct (decide (x = k)) as [->|Hxk].
      * rewrite list_lookup_insert by lia. by rewrite decide_True by done.
      * rewrite list_lookup_insert_ne by done. rewrite decide_False by (rewrite Ekk; congruence). rewrite app_nil_r. by apply Ic.
    + intros n Hn. destruct (decide (n = k)) as [->|Hnk].
      * rewrite list_lookup_insert by (rewrite It; apply Hlt). by rewrite Ekk.
      * rewrite list_lookup_insert_ne; [apply Isl; lia|]. intros E. apply (Hf n); [lia|done].
    + intros i x E. destruct (decide (i = slot sims hs k)) as [->|Hi].
      * rewrite list_lookup_insert in E by (rewrite It; apply Hlt). injection E as <-. split; [lia|done].
      * rewrite list_lookup_insert_ne in E by done. destruct (Iro i x E). split; [lia|done].
Qed.

Lemma prepare_spec sims : rows nw s sims -> faithful s sims ->
  exists c, prepare nw s sims (classes_init s) = Some c /\ grouped (size s) c /\ together s c.
Proof using All.
  intros R F. unfold prepare. destruct (prime_cudd_spec (size s `div` 4)) as (hs & -> & _ & Hh%good_pos & _). cbn [mbind option_bind].
  rewrite live_nodes_spec. cbn [mbind option_bind].
  destruct (each_total (enter nw s sims hs) (fun p d => entered sims hs (length p) d) (seq 0 (size s)) (repeat None hs, classes_init s)) as (d & E & I).
  { split; cbn [fst snd length classes_init c_reprs c_ids].
    - apply repeat_length.
    - apply seq_length.
    - apply repeat_length.
    - intros n r Hn. lia.
    - intros n _ Hn. by apply lookup_seq_lt.
    - intros r Hr. destruct (lookup_lt_is_Some_2 (repeat ([] : list nat) (size s)) r) as [l El]; [by rewrite repeat_length|].
      rewrite El. f_equal. by apply elem_of_list_lookup_2, elem_of_list_In, repeat_spec in El as ->.
    - intros n Hn. lia.
    - intros i r E. by apply elem_of_list_lookup_2, elem_of_list_In, repeat_spec in E. }
  { intros p i q d El I.
    assert (Ei : i = length p). { assert (seq 0 (size s) !! length p = Some i) as H by (rewrite El; by rewrite lookup_app_r, Nat.sub_diag by lia). apply lookup_seq in H. lia. }
    assert (Hi : i < size s). { assert (length (seq 0 (size s)) = size s) as H by apply seq_length. rewrite El, app_length in H. cbn in H. lia. }
    rewrite app_length. cbn [length]. rewrite Nat.add_1_r. rewrite <- Ei in *. by apply enter_spec. }
  rewrite E. cbn [mbind option_bind]. rewrite seq_length in I.
  assert (G : grouped (size s) d.2).
  { split; [apply I| |apply I|apply I]. intros n r E'. apply (en_repr _ _ _ _ I); [|done]. apply lookup_lt_Some in E'. by rewrite (en_len _ _ _ _ I) in E'. }
  destruct (refine_classes_spec sims false d.2 R G) as (c & Ec & Gc & _ & Hc). exists c. split; [done|]. split; [done|].
  eapply (together_keep sims d.2); [|done|done]. intros n m Hn Hm Ha.
  pose proof (en_slot _ _ _ _ I n Hn) as En. pose proof (en_slot _ _ _ _ I m Hm) as Em.
  assert (Es : slot sims hs n = slot sims hs m).
  { unfold slot. rewrite !node_hash_spec by done. by rewrite (F n m Hn Hm Ha). }
  rewrite Es, Em in En. by injection En.
Qed.

Theorem compute_equiv_classes_spec : exists c k, compute_equiv_classes rnd nw s = Some (c, k) /\ grouped (size s) c /\ together s c /\
  exists sims j, random_simulation rnd nw s j = Some (sims, k) /\ rows nw s sims /\ uniform (norm s sims) c.
Proof using All.
  unfold compute_equiv_classes. destruct (simulation_faithful rnd nw s P Hnw 0) as (sims & k & -> & R & F). cbn [mbind option_bind].
  destruct (prepare_spec sims R F) as (c & -> & G & T). cbn [mbind option_bind].
  destruct (each_total (round rnd nw s) (fun p d => grouped (size s) d.1 /\ together s d.1 /\ (p <> [] -> exists sims j, random_simulation rnd nw s j = Some (sims, d.2) /\ rows nw s sims /\ uniform (norm s sims) d.1))
    (seq 0 7) (c, k)) as ([c' k'] & E & G' & T' & H).
  { done. }
  { intros p i q [c1 k1] _ (G1 & T1 & _). cbn [fst snd] in *. unfold round. cbn [fst snd].
    destruct (simulation_faithful rnd nw s P Hnw k1) as (sims1 & k2 & E1 & R1 & F1). rewrite E1. cbn [mbind option_bind].
    destruct (refine_classes_spec sims1 true c1 R1 G1) as (c2 & E2 & G2 & U2 & H2). rewrite E2. cbn [mbind option_bind].
    exists (c2, k2). split; [done|]. cbn [fst snd]. split; [done|]. split; [by eapply (together_keep sims1 c1)|]. intros _. by exists sims1, k1. }
  exists c', k'. split; [done|]. cbn [fst snd] in *. split; [done|]. split; [done|]. by apply H.
Qed.
End classes.
