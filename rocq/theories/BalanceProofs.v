(* Correctness of AND balancing. *)
From Coq Require Import Sorting.Sorted.
From stdpp Require Import sorting.
From Verif Require Import Base Aig AigSem AigHash AigProofs AigApi AigReach Topo TopoProofs Clean NetProofs CleanProofs Depth DepthProofs
  Cnf CnfProofs Balance.

(* ---------------- de-duplication ---------------- *)
Lemma sdata_snot f : sdata (snot f) = if scompl f then sdata f - 1 else sdata f + 1.
Proof. unfold sdata, snot. destruct f as [i []]; cbn; lia. Qed.
Lemma sdata_inj f g : sdata f = sdata g -> f = g.
Proof. unfold sdata. destruct f as [i []], g as [j []]; cbn; intros; f_equal; lia. Qed.
Lemma snot_snot f : snot (snot f) = f.
Proof. destruct f as [i []]; done. Qed.

Lemma unify_scan_cons x y r : unify_scan (x :: y :: r) =
  if decide (x = snot y) then None else if decide (x = y) then unify_scan (y :: r)
  else l' ← unify_scan (y :: r); Some (x :: l').
Proof. reflexivity. Qed.

Lemma unify_scan_some l l' : StronglySorted lit_le l -> unify_scan l = Some l' ->
  NoDup l' /\ (forall f, f ∈ l' <-> f ∈ l) /\ forall f, f ∈ l -> snot f ∉ l.
Proof.
  revert l'. induction l as [|x r IH]; intros l' Hs H.
  - injection H as <-. split; [constructor|]. split; [done|]. intros f Hf. by apply elem_of_nil in Hf.
  - apply StronglySorted_inv in Hs as [Hs Hx]. destruct r as [|y r].
    + injection H as <-. split; [apply NoDup_singleton|]. split; [done|].
      intros f ->%elem_of_list_singleton Hc%elem_of_list_singleton. destruct x as [i []]; done.
    + rewrite unify_scan_cons in H. destruct (decide (x = snot y)) as [->|Hne]; [done|].
      assert (Hmin : forall f, f ∈ y :: r -> sdata y <= sdata f).
      { intros f Hf. apply elem_of_cons in Hf as [->|Hf]; [lia|]. apply StronglySorted_inv in Hs as [_ Hy].
        rewrite Forall_forall in Hy. by apply Hy. }
      assert (Hxy : sdata x <= sdata y) by (rewrite Forall_forall in Hx; apply Hx; apply elem_of_list_here).
      destruct (decide (x = y)) as [->|Hd].
      * destruct (IH l' Hs H) as (H1 & H2 & H3). split; [done|].
        assert (He : forall f, f ∈ y :: y :: r <-> f ∈ y :: r).
        { intros f. rewrite !elem_of_cons. tauto. }
        split; [intros f; by rewrite He|]. intros f. rewrite !He. apply H3.
      * destruct (unify_scan (y :: r)) as [l1|] eqn:E; [|done]. cbn in H. injection H as <-.
        destruct (IH l1 Hs eq_refl) as (H1 & H2 & H3).
        assert (Hlt : sdata x < sdata y).
        { destruct (decide (sdata x = sdata y)) as [Hq%sdata_inj|]; [by subst|lia]. }
        assert (Hnx : x ∉ y :: r) by (intros Hq%Hmin; lia).
        assert (Hnc : snot x ∉ y :: r).
        { intros Hq. pose proof (Hmin _ Hq) as Hle. rewrite sdata_snot in Hle. destruct (scompl x) eqn:Ec; [lia|].
          apply Hne. rewrite <- (snot_snot x). f_equal. apply sdata_inj. rewrite sdata_snot, Ec. lia. }
        split; [|split].
        -- constructor; [by rewrite H2|done].
        -- intros f. by rewrite !(elem_of_cons _ f x), H2.
        -- intros f [->|Hf]%elem_of_cons [Hc|Hc]%elem_of_cons.
           ++ destruct x as [i []]; done.
           ++ done.
           ++ apply Hnc. by rewrite <- Hc, snot_snot.
           ++ exact (H3 f Hf Hc).
Qed.

Lemma unify_scan_none l : unify_scan l = None -> exists f, f ∈ l /\ snot f ∈ l.
Proof.
  induction l as [|x r IH]; [done|]. destruct r as [|y r]; [done|]. rewrite unify_scan_cons.
  destruct (decide (x = snot y)) as [->|Hne].
  - intros _. exists y. split; [apply elem_of_list_further, elem_of_list_here|apply elem_of_list_here].
  - destruct (decide (x = y)).
    + intros H. destruct (IH H) as (f & ? & ?). exists f. split; by apply elem_of_list_further.
    + destruct (unify_scan (y :: r)) eqn:E; [done|]. intros _.
      destruct (IH eq_refl) as (f & ? & ?). exists f. split; by apply elem_of_list_further.
Qed.

#[global] Instance lit_le_trans : Transitive lit_le.
Proof. intros a b c. unfold lit_le. lia. Qed.
#[global] Instance lit_le_total : Total lit_le.
Proof. intros a b. unfold lit_le. lia. Qed.

Lemma unify_cases l :
  (balance_unify l = [] /\ (l = [] \/ exists f, f ∈ l /\ snot f ∈ l)) \/
  (l <> [] /\ balance_unify l <> [] /\ NoDup (balance_unify l) /\
   (forall f, f ∈ balance_unify l <-> f ∈ l) /\ forall f, f ∈ l -> snot f ∉ l).
Proof.
  unfold balance_unify. pose proof (merge_sort_Permutation lit_le l) as Hp.
  pose proof (StronglySorted_merge_sort lit_le l) as Hs.
  assert (He : forall f, f ∈ merge_sort lit_le l <-> f ∈ l) by (intros f; by rewrite Hp).
  destruct (unify_scan (merge_sort lit_le l)) as [l'|] eqn:E; cbn [default].
  - destruct (unify_scan_some _ _ Hs E) as (H1 & H2 & H3). destruct l' as [|x l'].
    + left. split; [done|]. left. destruct l as [|f l]; [done|]. exfalso.
      specialize (H2 f). rewrite He in H2. apply (not_elem_of_nil f), H2, elem_of_list_here.
    + right. split; [intros ->; specialize (H2 x); rewrite He in H2; apply (not_elem_of_nil x), H2, elem_of_list_here|].
      split; [done|]. split; [done|]. split; [intros f; by rewrite H2, He|].
      intros f Hf Hc. apply (H3 f); by rewrite He.
  - left. split; [done|]. right. apply unify_scan_none in E as (f & H1 & H2). rewrite He in H1, H2. by exists f.
Qed.

(* conjunction of a list of signals *)
Definition conj (v : nat -> bool) (l : list signal) : bool := forallb (sval v) l.
Lemma conj_true v l : conj v l = true <-> forall f, f ∈ l -> sval v f = true.
Proof. unfold conj. rewrite forallb_forall. split; intros H f Hf; apply H; by apply elem_of_list_In. Qed.
Lemma conj_same v v' l l' : (forall f, f ∈ l' -> exists g, g ∈ l /\ sval v' f = sval v g) ->
  (forall g, g ∈ l -> exists f, f ∈ l' /\ sval v' f = sval v g) -> conj v' l' = conj v l.
Proof.
  intros H1 H2. apply eq_true_iff_eq. rewrite !conj_true. split; intros H f Hf.
  - destruct (H2 f Hf) as (g & Hg & <-). by apply H.
  - destruct (H1 f Hf) as (g & Hg & ->). by apply H.
Qed.
Lemma conj_app v l l' : conj v (l ++ l') = conj v l && conj v l'.
Proof. apply forallb_app. Qed.
Lemma conj_perm v l l' : Permutation l l' -> conj v l = conj v l'.
Proof. intros Hp. apply conj_same; intros f Hf; exists f; (split; [|done]); [by rewrite <- Hp|by rewrite Hp]. Qed.

Lemma unify_conj v l : l <> [] ->
  conj v l = match balance_unify l with [] => false | _ => conj v (balance_unify l) end.
Proof.
  intros Hl. destruct (unify_cases l) as [[-> [?|(f & H1 & H2)]]|(_ & Hne & _ & Hin & _)]; [done| |].
  - apply not_true_is_false. intros H. rewrite conj_true in H. pose proof (H f H1) as E1. pose proof (H _ H2) as E2.
    rewrite sval_snot, E1 in E2. done.
  - destruct (balance_unify l) as [|x l'] eqn:E; [done|]. rewrite <- E in *.
    apply conj_same; intros f Hf; exists f; (split; [|done]); by apply Hin.
Qed.

(* ---------------- collecting the cone ---------------- *)
Section cone.
Variables (s : aig) (rank : nat -> nat).
Hypothesis (W : network s).
Hypothesis (Hrank : forall n m, fanin s n m -> rank m < rank n).
Hypothesis (Hcomb : npi s = length (ins s)).
Hypothesis (Hzero : npi s <> 0 \/ forall n, ~ fanin s n 0).

Lemma is_and_gate n a b : ks s !! n = Some (a, b) -> n <> 0 -> a <> b -> is_and s n = Some true.
Proof.
  intros E Hn Hab. unfold is_and, is_ci. rewrite decide_False by done. rewrite E. cbn. by rewrite bool_decide_eq_false_2.
Qed.

Lemma pis_ins : pis s = ins s.
Proof. unfold pis. rewrite Hcomb. apply firstn_all. Qed.

(* an edge target that is not reported as input is a gate *)
Lemma not_pi_gate n m : fanin s n m -> is_pi s m = Some false ->
  exists a b, ks s !! m = Some (a, b) /\ m <> 0 /\ a <> b.
Proof.
  intros Hf Hpi. destruct (is_pi_net s m W (net_gate _ W _ _ Hf)) as (b & Hb & Hiff). rewrite Hpi in Hb. injection Hb as <-.
  destruct (net_cases s m W (net_gate _ W _ _ Hf)) as [->|[[k Hk]|(Hm & a & b & E & Hab)]].
  - exfalso. unfold is_pi in Hpi. rewrite (net_const _ W) in Hpi. cbn [mbind option_bind fst snd] in Hpi.
    assert (0 < npi s) by (destruct Hzero as [|H]; [lia|by destruct (H _ Hf)]).
    rewrite !bool_decide_eq_true_2 in Hpi; [done|unfold sdata; cbn; lia|done].
  - exfalso. assert (m ∈ pis s) by (rewrite pis_ins; by eapply elem_of_list_lookup_2).
    assert (m <> 0). { intros ->. by destruct (net_in _ W k 0 Hk). }
    rewrite bool_decide_eq_false_2 in Hiff by done. cbn in Hiff. destruct Hiff as [_ Hiff]. specialize (Hiff (or_intror H)). done.
  - exists a, b. auto.
Qed.

Lemma cone_spec root : forall fuel f super,
  rank (sidx f) < fuel ->
  (f = Sig root false /\ is_gate s root) \/ (exists n, fanin s n (sidx f) /\ rank n <= rank root /\ rtc (fanin s) root n) ->
  exists l, cone_rec s fuel root f super = Some (super ++ l) /\ l <> [] /\
    Forall (fun g => valid s g /\ rank (sidx g) < rank root /\ tc (fanin s) root (sidx g)) l /\
    forall env v, valuation s env v -> conj v l = sval v f.
Proof.
  induction fuel as [|fuel IH]; intros f super Hfuel Hf; [lia|]. cbn [cone_rec].
  assert (Hexp : forall a b, ks s !! sidx f = Some (a, b) -> sidx f <> 0 -> a <> b -> scompl f = false ->
    rank (sidx f) <= rank root -> rtc (fanin s) root (sidx f) ->
    exists l, (super1 ← cone_rec s fuel root a super; cone_rec s fuel root b super1) = Some (super ++ l) /\ l <> [] /\
    Forall (fun g => valid s g /\ rank (sidx g) < rank root /\ tc (fanin s) root (sidx g)) l /\
    forall env v, valuation s env v -> conj v l = sval v f).
  { intros a b E H0 Hab Hc Hle Hrt.
    assert (Fa : fanin s (sidx f) (sidx a)) by (exists a, b; auto).
    assert (Fb : fanin s (sidx f) (sidx b)) by (exists a, b; auto).
    pose proof (Hrank _ _ Fa) as Ra. pose proof (Hrank _ _ Fb) as Rb.
    destruct (IH a super) as (la & -> & Hna & Hla & Va); [lia|right; by exists (sidx f)|]. cbn [mbind option_bind].
    destruct (IH b (super ++ la)) as (lb & -> & Hnb & Hlb & Vb); [lia|right; by exists (sidx f)|].
    exists (la ++ lb). rewrite app_assoc. split; [done|]. split; [by destruct la|]. split; [by apply Forall_app|].
    intros env v V. rewrite conj_app, (Va env v V), (Vb env v V).
    unfold sval at 3. rewrite Hc, xorb_false_r. symmetry. by apply (val_gate _ _ _ V). }
  unfold cone_stop. destruct (decide (f = Sig root false)) as [->|Hnr].
  - assert (is_gate s root) as (a & b & E & H0 & Hab).
    { destruct Hf as [[_ H]|(n & Hn & Hle & _)]; [done|]. cbn in Hn. apply Hrank in Hn. lia. }
    cbn [mbind option_bind scompl sidx]. rewrite (is_and_gate _ _ _ E H0 Hab). cbn [mbind option_bind]. rewrite E. cbn [mbind option_bind fst snd].
    by apply Hexp; try done.
  - destruct Hf as [[? _]|(n & Hn & Hle & Hrn)]; [done|].
    assert (Hv : valid s f) by (by eapply net_gate). pose proof (Hrank _ _ Hn) as Hlt.
    assert (Hstop : exists l, Some (super ++ [f]) = Some (super ++ l) /\ l <> [] /\
      Forall (fun g => valid s g /\ rank (sidx g) < rank root /\ tc (fanin s) root (sidx g)) l /\
      forall env v, valuation s env v -> conj v l = sval v f).
    { exists [f]. split; [done|]. split; [done|]. split.
      - constructor; [|constructor]. split; [done|]. split; [lia|]. eapply tc_rtc_l; [exact Hrn|by apply tc_once].
      - intros env v _. cbn. by rewrite andb_true_r. }
    destruct (scompl f) eqn:Ec; [exact Hstop|].
    destruct (is_pi_net s (sidx f) W Hv) as (pi & Hpi & _). rewrite Hpi. cbn [mbind option_bind].
    destruct pi; [exact Hstop|].
    assert (exists fs, fanout_size s (sidx f) = Some fs) as [fs ->].
    { unfold fanout_size. destruct (lookup_lt_is_Some_2 (fo s) (sidx f)) as [h ->]; [by rewrite (net_fo _ W)|]. eauto. }
    cbn [mbind option_bind]. destruct (_ || _); [exact Hstop|].
    destruct (not_pi_gate _ _ Hn Hpi) as (a & b & E & H0 & Hab).
    rewrite (is_and_gate _ _ _ E H0 Hab). cbn [mbind option_bind]. rewrite E. cbn [mbind option_bind fst snd].
    apply Hexp; try done; [lia|]. eapply rtc_r; [exact Hrn|exact Hn].
Qed.

Lemma get_balance_cone_spec n : is_gate s n -> rank n <= size s ->
  exists l, get_balance_cone s n = Some l /\
    Forall (fun g => valid s g /\ rank (sidx g) < rank n /\ tc (fanin s) n (sidx g)) l /\ NoDup l /\ (forall f, f ∈ l -> snot f ∉ l) /\
    forall env v, valuation s env v -> v n = match l with [] => false | _ => conj v l end.
Proof.
  intros Hg Hr. unfold get_balance_cone. assert (Hg' := Hg). destruct Hg as (a & b & E & H0 & Hab).
  rewrite (is_and_gate _ _ _ E H0 Hab). cbn [mbind option_bind].
  destruct (cone_spec n (S (size s)) (Sig n false) []) as (l & -> & Hne & Hl & HV); [cbn; lia|by left|].
  cbn [mbind option_bind app]. eexists. split; [reflexivity|]. split.
  - destruct (unify_cases l) as [[-> _]|(_ & _ & _ & Hin & _)]; [constructor|].
    rewrite Forall_forall in *. intros g Hg. apply Hl. by apply Hin.
  - split; [|split].
    { destruct (unify_cases l) as [[-> _]|(_ & _ & Hnd & _)]; [constructor|done]. }
    { destruct (unify_cases l) as [[-> _]|(_ & _ & _ & Hin & Hno)].
      - intros f Hf. by apply elem_of_nil in Hf.
      - intros f Hf Hc. apply (Hno f); by apply Hin. }
    intros env v V. specialize (HV env v V). unfold sval in HV. cbn in HV. rewrite xorb_false_r in HV.
    rewrite <- HV. by apply unify_conj.
Qed.
End cone.

(* ---------------- building a supergate ---------------- *)
Definition vok (x : aig * dview) : Prop := reachable x.1 /\ length (dv_lev x.2) = size x.1.

Lemma lev_some x f : vok x -> valid x.1 f -> exists l, lev_of x f = Some l.
Proof. intros [_ Hl] Hv. unfold lev_of, level. apply lookup_lt_is_Some_2. by rewrite Hl. Qed.

Lemma on_add_some cost s n v a b : ks s !! n = Some (a, b) -> n <> 0 -> a <> b -> sidx a < size s -> sidx b < size s ->
  length (dv_lev v) <= size s ->
  exists v', on_add cost false s n v = Some v' /\ length (dv_lev v') = size s.
Proof.
  intros E Hn Hab Ha Hb Hl. unfold on_add.
  assert (Hlen : length (resize_levels s (dv_lev v)) = size s) by (by apply resize_length).
  set (lev := resize_levels s (dv_lev v)) in *.
  assert (fanins s n = Some [a; b]) as ->.
  { unfold fanins. rewrite decide_False by done. unfold is_ci. rewrite E. cbn. by rewrite bool_decide_eq_false_2. }
  cbn [mbind option_bind max_level].
  destruct (lookup_lt_is_Some_2 lev (sidx a)) as [la ->]; [lia|].
  destruct (lookup_lt_is_Some_2 lev (sidx b)) as [lb ->]; [lia|].
  destruct (lookup_lt_is_Some_2 lev n) as [l ->]; [apply lookup_lt_Some in E; unfold size in Hlen; lia|].
  cbn [mbind option_bind]. eexists. split; [reflexivity|]. cbn. by rewrite insert_length.
Qed.

Lemma dv_and_wp cost x a b : vok x -> valid x.1 a -> valid x.1 b ->
  wp (dv_and cost false a b) x (fun f x' => vok x' /\
    makes x.1 (fun env => sval (ev x.1 env) a && sval (ev x.1 env) b) f x'.1).
Proof.
  destruct x as [s v]. intros [Hr Hl] Ha Hb. cbn [fst snd] in *. pose proof (reachable_wf s Hr) as W.
  pose proof (create_and_r s a b Hr Ha Hb) as H. pose proof (create_and_cases s a b W Ha Hb) as Hc.
  apply wp_elim in H as (f & s' & E & Hm). unfold wp in Hc. rewrite E in Hc. destruct Hc as [_ Hc].
  pose proof Hm as (Hr' & He & Hvf & _). unfold wp, dv_and. cbn [fst snd]. rewrite E. cbn [mbind option_bind].
  destruct Hc as [->|(Hks & -> & Hno & Hne1 & Hne2)].
  { rewrite decide_True by done. split; [by split|done]. }
  assert (Hsz : size s' = S (size s)) by (unfold size; rewrite Hks, app_length; cbn; lia).
  rewrite decide_False by lia. destruct (order a b) as [a' b'] eqn:Eo. cbn in Hne1, Hne2.
  assert (Hab : a' <> b') by (intros ->; done).
  assert (Hk : ks s' !! size s = Some (a', b')) by (rewrite Hks; apply lookup_snoc_eq).
  pose proof (wf_size s W) as Hs0. destruct (wf_gate _ (reachable_wf _ Hr') _ _ _ Hk Hab) as (Ha0 & Hab' & Hb').
  destruct (on_add_some cost s' (size s) v a' b') as (v' & -> & Hlv); [done|lia|done|lia|lia|lia|].
  cbn [mbind option_bind]. split; [by split|done].
Qed.

Lemma exchange_perm i j l l' : exchange i j l = Some l' -> Permutation l l'.
Proof.
  unfold exchange. intros H. destruct (l !! i) as [a|] eqn:Ei; [|done]. destruct (l !! j) as [b|] eqn:Ej; [|done].
  cbn in H. injection H as <-. destruct (decide (i = j)) as [->|Hij].
  - rewrite Ej in Ei. injection Ei as ->. rewrite !list_insert_id; [done|done|by rewrite list_insert_id].
  - apply Permutation_inj. split; [by rewrite !insert_length|].
    exists (fun k => if decide (k = i) then j else if decide (k = j) then i else k). split.
    + intros k1 k2. repeat case_decide; congruence.
    + intros k. pose proof (lookup_lt_Some _ _ _ Ei). pose proof (lookup_lt_Some _ _ _ Ej). case_decide as H1; [|case_decide as H2].
      * subst. rewrite list_lookup_insert by (by rewrite insert_length). done.
      * subst. rewrite list_lookup_insert_ne by done. by rewrite list_lookup_insert.
      * rewrite !list_lookup_insert_ne by done. done.
Qed.

Lemma exchange_some i j l : i < length l -> j < length l -> exists l', exchange i j l = Some l'.
Proof.
  intros Hi Hj. unfold exchange. destruct (lookup_lt_is_Some_2 l i Hi) as [a ->]. destruct (lookup_lt_is_Some_2 l j Hj) as [b ->].
  cbn. eauto.
Qed.

Definition all_valid (s : aig) (l : list signal) : Prop := Forall (valid s) l.
Lemma all_valid_perm s l l' : Permutation l l' -> all_valid s l -> all_valid s l'.
Proof. unfold all_valid. by intros <-. Qed.

Lemma scan_left_some x lr super c : vok x -> all_valid x.1 super -> c <= length super ->
  exists lb, scan_left x lr super c = Some lb /\ lb <= c.
Proof.
  intros Hx Hs. induction c as [|c IH]; intros Hc; [by exists 0|]. cbn [scan_left].
  destruct (lookup_lt_is_Some_2 super c Hc) as [f Hf]. rewrite Hf. cbn [mbind option_bind].
  unfold all_valid in Hs. rewrite Forall_lookup in Hs. destruct (lev_some x f Hx (Hs _ _ Hf)) as [l ->]. cbn [mbind option_bind].
  case_decide; [|by exists (S c)]. destruct IH as (lb & -> & ?); [lia|]. exists lb. split; [done|lia].
Qed.

Lemma find_left_some x super : vok x -> all_valid x.1 super -> 2 <= length super ->
  exists lb, balance_find_left x super = Some lb /\ lb <= length super - 2.
Proof.
  intros Hx Hs Hlen. unfold balance_find_left. case_decide; [exists 0; split; [done|lia]|].
  destruct (lookup_lt_is_Some_2 super (length super - 2)) as [f Hf]; [lia|]. rewrite Hf. cbn [mbind option_bind].
  pose proof Hs as Hs'. unfold all_valid in Hs'. rewrite Forall_lookup in Hs'. destruct (lev_some x f Hx (Hs' _ _ Hf)) as [l ->]. cbn [mbind option_bind].
  apply scan_left_some; [done|done|lia].
Qed.

Lemma find_and_some s a b : reachable s -> valid s a -> valid s b -> exists r, find_and a b s = Some r.
Proof.
  intros Hr Ha Hb. pose proof (create_and_r s a b Hr Ha Hb) as H. apply wp_elim in H as (f & s' & E & _).
  destruct (find_and_exact s a b f s' Hr Ha Hb E) as [[-> _]|[-> _]]; eauto.
Qed.

Lemma permute_loop_some x lb right node1 node2 super c : vok x -> all_valid x.1 super -> valid x.1 node1 ->
  c <= length super -> right < length super ->
  exists l, permute_loop x lb right node1 node2 super c = Some l /\ Permutation super l.
Proof.
  intros Hx Hs H1. induction c as [|i IH]; intros Hc Hr; [by exists super|]. cbn [permute_loop].
  case_decide; [by exists super|].
  destruct (lookup_lt_is_Some_2 super i Hc) as [node3 H3]. rewrite H3. cbn [mbind option_bind].
  destruct (exchange_some i right super Hc Hr) as [l Hl]. pose proof (exchange_perm _ _ _ _ Hl) as Hp.
  case_decide; [by exists l|]. case_decide; [case_decide; [by exists super|by exists l]|].
  pose proof Hs as Hs'. unfold all_valid in Hs'. rewrite Forall_lookup in Hs'.
  destruct (find_and_some x.1 node1 node3 (proj1 Hx) H1 (Hs' _ _ H3)) as [r ->]. cbn [mbind option_bind].
  destruct r; [case_decide; [by exists super|by exists l]|]. apply IH; [lia|done].
Qed.

Lemma permute_some x super lb : vok x -> all_valid x.1 super -> 2 <= length super -> lb <= length super - 2 ->
  exists l, balance_permute x super lb = Some l /\ Permutation super l.
Proof.
  intros Hx Hs Hlen Hlb. unfold balance_permute. rewrite decide_False by lia. case_decide; [by exists super|].
  destruct (lookup_lt_is_Some_2 super (length super - 2 + 1)) as [node1 H1]; [lia|]. rewrite H1. cbn [mbind option_bind].
  destruct (lookup_lt_is_Some_2 super (length super - 2)) as [node2 H2]; [lia|]. rewrite H2. cbn [mbind option_bind].
  case_decide; [by exists super|]. pose proof Hs as Hs'. unfold all_valid in Hs'. rewrite Forall_lookup in Hs'.
  apply permute_loop_some; try done; [by eapply Hs'|lia|lia].
Qed.

Lemma bubble_some x i super : vok x -> all_valid x.1 super -> i < length super ->
  exists l, bubble x i super = Some l /\ Permutation super l.
Proof.
  intros Hx. revert super. induction i as [|j IH]; intros super Hs Hi; [by exists super|]. cbn [bubble].
  destruct (lookup_lt_is_Some_2 super (S j) Hi) as [n0 H0]. destruct (lookup_lt_is_Some_2 super j) as [n1 H1]; [lia|].
  rewrite H0, H1. cbn [mbind option_bind]. pose proof Hs as Hs'. unfold all_valid in Hs'. rewrite Forall_lookup in Hs'.
  destruct (lev_some x n0 Hx (Hs' _ _ H0)) as [l0 ->]. destruct (lev_some x n1 Hx (Hs' _ _ H1)) as [l1 ->]. cbn [mbind option_bind].
  case_decide; [by exists super|]. destruct (exchange_some (S j) j super) as [l El]; [lia|lia|]. rewrite El. cbn [mbind option_bind].
  apply exchange_perm in El. destruct (IH l) as (l' & -> & Hp); [by eapply all_valid_perm|rewrite <- El; lia|].
  exists l'. split; [done|]. by etrans.
Qed.

Lemma push_unique_spec x super f : vok x -> all_valid x.1 super -> valid x.1 f ->
  exists l, push_unique_by_level x super f = Some l /\ all_valid x.1 l /\ length l <= S (length super) /\ l <> [] /\
    forall v, conj v l = conj v super && sval v f.
Proof.
  intros Hx Hs Hf. unfold push_unique_by_level. case_decide as Hin.
  - exists super. split; [done|]. split; [done|]. split; [lia|]. split; [by intros ->; apply elem_of_nil in Hin|].
    intros v. destruct (conj v super) eqn:E; [|done]. rewrite conj_true in E. by rewrite E.
  - assert (Hs' : all_valid x.1 (super ++ [f])) by (apply Forall_app; by repeat constructor).
    destruct (bubble_some x (length super) (super ++ [f]) Hx Hs') as (l & -> & Hp); [rewrite app_length; cbn; lia|].
    exists l. split; [done|]. split; [by eapply all_valid_perm|]. split; [rewrite <- Hp, app_length; cbn; lia|].
    split; [intros ->; symmetry in Hp; apply Permutation_nil in Hp; by destruct super|].
    intros v. rewrite <- (conj_perm v _ _ Hp), conj_app. cbn. by rewrite andb_true_r.
Qed.

Lemma conj_ext s s' env l : ext s s' -> all_valid s l -> conj (ev s' env) l = conj (ev s env) l.
Proof.
  intros He Hl. apply conj_same; intros f Hf; exists f; (split; [done|]); apply (ext_sval _ _ _ _ He); unfold all_valid in Hl; rewrite Forall_forall in Hl; by apply Hl.
Qed.

Lemma split_last2 (l : list signal) a b : l !! (length l - 1) = Some a -> l !! (length l - 2) = Some b -> 2 <= length l ->
  l = take (length l - 2) l ++ [b; a].
Proof.
  intros Ha Hb Hl. rewrite <- (take_drop (length l - 2) l) at 1. f_equal.
  rewrite (drop_S l b) by done. f_equal. replace (S (length l - 2)) with (length l - 1) by lia.
  rewrite (drop_S l a) by done. f_equal. apply drop_ge. lia.
Qed.

Lemma super_loop_spec : forall fuel super x, vok x -> all_valid x.1 super -> super <> [] -> length super <= S fuel ->
  wp (super_loop fuel super) x (fun f x' => vok x' /\ makes x.1 (fun env => conj (ev x.1 env) super) f x'.1).
Proof.
  induction fuel as [|fuel IH]; intros super x Hx Hs Hne Hlen;
    (destruct super as [|f0 [|f1 super]]; [done| |]).
  - apply wp_ret. split; [done|]. split; [apply Hx|]. split; [apply ext_refl|]. split; [by apply Forall_inv in Hs|].
    intros env. cbn. by rewrite andb_true_r.
  - cbn in Hlen. lia.
  - apply wp_ret. split; [done|]. split; [apply Hx|]. split; [apply ext_refl|]. split; [by apply Forall_inv in Hs|].
    intros env. cbn. by rewrite andb_true_r.
  - remember (f0 :: f1 :: super) as l0 eqn:El0. assert (H2 : 2 <= length l0) by (rewrite El0; cbn; lia).
    assert (Hunf : super_loop (S fuel) l0 =
      let! x := get in
      let! lb := lift (balance_find_left x l0) in
      let! super1 := lift (balance_permute x l0 lb) in
      let! node0 := lift (super1 !! (length super1 - 1)) in
      let! node1 := lift (super1 !! (length super1 - 2)) in
      let rest := take (length super1 - 2) super1 in
      let! f := dv_and unit_cost false node0 node1 in
      let! x1 := get in
      let! super2 := lift (push_unique_by_level x1 rest f) in
      super_loop fuel super2) by (rewrite El0; reflexivity).
    rewrite Hunf. clear Hunf El0 f0 f1 super.
    apply wp_bnd, wp_get. destruct (find_left_some x l0 Hx Hs H2) as (lb & Elb & Hlb).
    apply wp_bnd, (wp_lift _ lb); [done|].
    destruct (permute_some x l0 lb Hx Hs H2 Hlb) as (l1 & El1 & Hp1). apply wp_bnd, (wp_lift _ l1); [done|].
    assert (Hlen1 : length l1 = length l0) by (by rewrite Hp1).
    destruct (lookup_lt_is_Some_2 l1 (length l1 - 1)) as [a Ha]; [lia|]. apply wp_bnd, (wp_lift _ a); [done|].
    destruct (lookup_lt_is_Some_2 l1 (length l1 - 2)) as [b Hb]; [lia|]. apply wp_bnd, (wp_lift _ b); [done|].
    pose proof (split_last2 l1 a b Ha Hb ltac:(lia)) as Hsplit. set (rest := take (length l1 - 2) l1) in *.
    assert (Hs1 : all_valid x.1 (rest ++ [b; a])) by (rewrite <- Hsplit; by eapply all_valid_perm).
    apply Forall_app in Hs1 as [Hrest Hba]. pose proof (Forall_inv Hba) as Hvb. pose proof (Forall_inv (Forall_inv_tail Hba)) as Hva.
    cbv zeta. apply wp_bnd. eapply wp_mono; [by apply dv_and_wp|]. cbn beta. intros f x1 [Hx1 (Hr1 & He1 & Hvf & Hval)].
    apply wp_bnd, wp_get.
    assert (Hrest1 : all_valid x1.1 rest).
    { unfold all_valid in *. eapply Forall_impl; [exact Hrest|]. intros g. by apply ext_valid. }
    destruct (push_unique_spec x1 rest f Hx1 Hrest1 Hvf) as (l2 & El2 & Hs2 & Hlen2 & Hne2 & Hc2).
    apply wp_bnd, (wp_lift _ l2); [done|].
    assert (Hlr : length rest = length l1 - 2) by (unfold rest; rewrite take_length; lia).
    eapply wp_mono; [apply IH; [done|done|done|lia]|]. cbn beta. intros g x2 [Hx2 (Hr2 & He2 & Hvg & Hval2)].
    split; [done|]. split; [done|]. split; [by eapply ext_trans|]. split; [done|].
    intros env. rewrite Hval2, Hc2, Hval, (conj_ext x.1 x1.1 env rest He1 Hrest), (conj_perm _ l0 l1 Hp1), Hsplit, conj_app.
    cbn. rewrite andb_true_r. f_equal. apply andb_comm.
Qed.

Lemma build_super_spec srt super x : sorts_by_level srt -> vok x -> all_valid x.1 super -> 2 <= length super ->
  wp (build_super srt super) x (fun f x' => vok x' /\ makes x.1 (fun env => conj (ev x.1 env) super) f x'.1).
Proof.
  intros Hsrt Hx Hs Hlen. unfold build_super. rewrite decide_False by lia. apply wp_bnd, wp_get.
  destruct (opt_map_spec (fun f => l ← lev_of x f; Some (l, f)) super) as (keyed & Ek & HF).
  { intros f Hf. unfold all_valid in Hs. rewrite Forall_forall in Hs. destruct (lev_some x f Hx (Hs _ Hf)) as [l ->]. cbn. eauto. }
  apply wp_bnd, (wp_lift _ keyed); [done|].
  assert (Hm : map snd keyed = super).
  { clear -HF. induction HF as [|f k l l' H HF IH]; [done|]. cbn. rewrite IH. f_equal. destruct (lev_of x f); [|done]. cbn in H. by injection H as <-. }
  destruct (Hsrt keyed) as [Hp _]. apply (Permutation_map snd) in Hp. rewrite Hm in Hp.
  eapply wp_mono; [apply super_loop_spec; [done|by eapply all_valid_perm|intros E; rewrite E in Hp; apply Permutation_length in Hp; cbn in Hp; lia|rewrite <- Hp; lia]|].
  cbn beta. intros f x' [Hx' (Hr & He & Hvf & Hval)]. split; [done|]. split; [done|]. split; [done|]. split; [done|].
  intros env. rewrite Hval. symmetry. by apply conj_perm.
Qed.

(* ---------------- the whole pass ---------------- *)
Section run.
Variables (srt : list (nat * signal) -> list (nat * signal)) (s : aig) (rank : nat -> nat).
Hypothesis (Hsrt : sorts_by_level srt).
Hypothesis (W : network s).
Hypothesis (Hrank : forall n m, fanin s n m -> rank m < rank n).
Hypothesis (Hbound : forall n, rank n <= size s).
Hypothesis (Hcomb : npi s = length (ins s)).
Hypothesis (Hzero : npi s <> 0 \/ forall n, ~ fanin s n 0).

(* g in the new network x computes f of the old one *)
Definition image (x : aig) (f g : signal) : Prop :=
  valid x g /\ forall env v, valuation s env v -> sval (ev x env) g = sval v f.

Lemma image_ext x x' f g : ext x x' -> image x f g -> image x' f g.
Proof.
  intros He [Hv Hval]. split; [by eapply ext_valid|]. intros env v V. rewrite (ext_sval x x' env g He Hv). by apply Hval.
Qed.
Lemma image_grows x x' f g : grows x x' -> image x f g -> image x' f g.
Proof.
  intros G [Hv Hval]. split; [by eapply grows_valid|]. intros env v V. rewrite <- (Hval env v V). unfold sval. by rewrite (grows_ev x x').
Qed.

Record binv (x : bstate) : Prop := {
  bi_ok : vok x.1;
  bi_len : length x.2 = size s;
  bi_memo : forall n f, x.2 !! n = Some (Some f) -> image x.1.1 (Sig n false) f;
  bi_src : forall n, n ∈ 0 :: ins s -> exists f, x.2 !! n = Some (Some f)
}.

Lemma binv_ext x y : binv x -> vok y -> ext x.1.1 y.1 -> binv (y, x.2).
Proof.
  intros [H1 H2 H3 H4] Hy He. split; cbn; try done. intros n f Hf. eapply image_ext; [done|by apply H3].
Qed.

Lemma binv_set x n f : binv x -> n < size s -> image x.1.1 (Sig n false) f -> binv (x.1, <[n := Some f]> x.2).
Proof.
  intros [H1 H2 H3 H4] Hn Hf. split; cbn; [done|by rewrite insert_length| |].
  - intros m g Hg. destruct (decide (m = n)) as [->|Hm].
    + rewrite list_lookup_insert in Hg by lia. by injection Hg as <-.
    + rewrite list_lookup_insert_ne in Hg by done. by apply H3.
  - intros m Hm. destruct (decide (m = n)) as [->|Hmn].
    + rewrite list_lookup_insert by lia. eauto.
    + rewrite list_lookup_insert_ne by done. by apply H4.
Qed.

Lemma memo_set_wp (x : bstate) n f (Q : unit -> bstate -> Prop) : n < length x.2 -> Q Datatypes.tt (x.1, <[n := Some f]> x.2) -> wp (memo_set n f) x Q.
Proof. intros Hn HQ. unfold wp, memo_set. destruct (lookup_lt_is_Some_2 x.2 n Hn) as [o ->]. exact HQ. Qed.

Lemma on_new_wp {A} (m : M (aig * dview) A) (x : bstate) (Q : A -> bstate -> Prop) : wp m x.1 (fun a y => Q a (y, x.2)) -> wp (on_new m) x Q.
Proof. unfold wp, on_new. destruct (m x.1) as [[a y]|]; done. Qed.

Definition rec_post (x : bstate) (n : nat) (f : signal) (x' : bstate) : Prop :=
  binv x' /\ ext x.1.1 x'.1.1 /\ image x'.1.1 (Sig n false) f.

Lemma image_const v n f : image v (Sig n false) f -> forall c, image v (Sig n c) (sxor f c).
Proof.
  intros [Hv H] c. split; [done|]. intros env w V. rewrite sval_sxor, (H env w V). unfold sval. cbn. by destruct (w n), c.
Qed.

Lemma balance_rec_spec : forall fuel n x, n < size s -> rank n < fuel -> binv x ->
  wp (balance_rec srt s fuel n) x (rec_post x n).
Proof.
  induction fuel as [|fuel IH]; intros n x Hn Hr Hx; [lia|]. cbn [balance_rec].
  destruct (lookup_lt_is_Some_2 x.2 n) as [o Ho]; [by rewrite (bi_len _ Hx)|].
  apply wp_bnd. unfold memo_get at 1. unfold wp at 1. rewrite Ho. cbn [mbind option_bind].
  destruct o as [f|].
  { apply wp_ret. split; [done|]. split; [apply ext_refl|]. by apply (bi_memo _ Hx). }
  assert (Hg : is_gate s n).
  { destruct (net_cases s n W Hn) as [->|[[k Hk]|(H0 & a & b & E & Hab)]].
    - destruct (bi_src _ Hx 0) as [f Hf]; [apply elem_of_list_here|congruence].
    - destruct (bi_src _ Hx n) as [f Hf]; [apply elem_of_list_further; by eapply elem_of_list_lookup_2|congruence].
    - by exists a, b. }
  destruct (get_balance_cone_spec s rank W Hrank Hcomb Hzero n Hg (Hbound n)) as (l & El & Hl & _ & _ & HV).
  apply wp_bnd, (wp_lift _ l); [done|]. destruct l as [|g0 l0].
  - assert (Him : image x.1.1 (Sig n false) (get_constant false)).
    { split; [apply valid_const; by apply reachable_wf, (bi_ok _ Hx)|]. intros env v V. unfold sval at 2. cbn. rewrite (HV env v V).
      rewrite sval_const; [done|]. by apply reachable_wf, (bi_ok _ Hx). }
    apply wp_bnd, memo_set_wp; [by rewrite (bi_len _ Hx)|]. apply wp_ret. split; [by apply binv_set|].
    cbn [fst snd]. split; [apply ext_refl|done].
  - remember (g0 :: l0) as l eqn:Hdef. apply wp_bnd.
    eapply wp_mono; [apply (mapM_wp _ (fun p r y => binv y /\ ext x.1.1 y.1.1 /\ Forall2 (image y.1.1) p r))|].
    + split; [done|]. split; [apply ext_refl|constructor].
    + intros p f q r y Hpq (Hy & He & HF). apply wp_bnd.
      assert (Hf : f ∈ l) by (rewrite Hpq; apply elem_of_app; right; apply elem_of_list_here).
      rewrite Forall_forall in Hl. destruct (Hl f Hf) as (Hvf & Hrf & _).
      eapply wp_mono; [apply IH; [exact Hvf|lia|done]|]. cbn beta. intros g z (Hz & Hez & Hig). apply wp_ret.
      split; [done|]. split; [by eapply ext_trans|]. apply Forall2_app.
      * eapply Forall2_impl; [exact HF|]. intros a b. by apply image_ext.
      * constructor; [|constructor]. destruct f as [i c]. cbn [sidx scompl] in *. by apply image_const.
    + cbn beta. intros r y (Hy & He & HF).
      assert (Hc : forall env v, valuation s env v -> conj (ev y.1.1 env) r = v n).
      { intros env v V. rewrite (HV env v V), Hdef. rewrite <- Hdef. clear -HF V.
        induction HF as [|f g l r [_ H] HF IHF]; [done|]. cbn. rewrite (H env v V). f_equal. exact IHF. }
      assert (Hvr : all_valid y.1.1 r).
      { clear -HF. induction HF as [|f g l r [H _] HF IHF]; [constructor|by constructor]. }
      assert (Hlen : length r = length l) by (symmetry; by eapply Forall2_length).
      destruct r as [|r0 [|r1 r]]; [subst l; cbn in Hlen; lia| |].
      * apply wp_ret. split; [done|]. split; [done|]. split; [by apply Forall_inv in Hvr|].
        intros env v V. specialize (Hc env v V). cbn in Hc. rewrite andb_true_r in Hc. rewrite Hc. unfold sval. cbn. by rewrite xorb_false_r.
      * apply wp_bnd, on_new_wp. eapply wp_mono; [apply build_super_spec; [done|apply Hy|done|cbn; lia]|].
        cbn beta. intros g z [Hz (Hrz & Hez & Hvg & Hval)].
        assert (Hzi : binv (z, y.2)) by (by apply binv_ext).
        assert (Him : image z.1 (Sig n false) g).
        { split; [done|]. intros env v V. rewrite Hval, (Hc env v V). unfold sval. cbn. by rewrite xorb_false_r. }
        apply wp_bnd, memo_set_wp; [cbn; by rewrite (bi_len _ Hy)|]. apply wp_ret. cbn [fst snd].
        split; [by apply (binv_set (z, y.2))|]. split; [by eapply ext_trans|done].
Qed.

Lemma balance_init_spec nb : 0 < nb -> exists x, balance_init nb s = Some x /\ binv x /\
  npi x.1.1 = npi s /\ length (ins x.1.1) = npi s /\ outs x.1.1 = [] /\ npo x.1.1 = 0.
Proof.
  intros Hnb. unfold balance_init. pose proof (net_size s W) as Hsz. pose proof (net_ins_nodup s W) as Hnd.
  pose proof (net_ins_valid s W) as Hiv. rewrite Forall_forall in Hiv. rewrite (pis_ins s Hcomb).
  destruct (size s) as [|sz] eqn:Esz; [lia|]. cbn [repeat mbind option_bind].
  set (m0 := Some (get_constant false) :: repeat None sz).
  assert (Hr0 : reachable (aig_init_n nb)) by (by constructor).
  assert (Hwp : wp (foldM (fun (_ : unit) pi => let! f := on_new dv_pi in memo_set pi f) Datatypes.tt (ins s)) (dv_empty nb, m0)
    (fun _ x => reachable x.1.1 /\ length (ins x.1.1) = length (ins s) /\ npi x.1.1 = length (ins s) /\ outs x.1.1 = [] /\ npo x.1.1 = 0 /\
      length x.2 = S sz /\ (forall n f, x.2 !! n = Some (Some f) -> image x.1.1 (Sig n false) f) /\
      (forall n, n ∈ 0 :: ins s -> exists f, x.2 !! n = Some (Some f)))).
  { apply (foldM_wp _ (fun p (_ : unit) (x : bstate) => reachable x.1.1 /\ length (ins x.1.1) = length p /\ npi x.1.1 = length p /\ outs x.1.1 = [] /\ npo x.1.1 = 0 /\
      length x.2 = S sz /\ (forall n f, x.2 !! n = Some (Some f) -> image x.1.1 (Sig n false) f) /\
      (forall n, n ∈ 0 :: p -> exists f, x.2 !! n = Some (Some f)))).
    - cbn [fst snd dv_empty]. split; [done|]. do 4 (split; [done|]). split; [cbn; by rewrite repeat_length|]. split.
      + intros n f Hf. destruct n as [|n]; [|cbn in Hf; by apply elem_of_list_lookup_2, elem_of_list_In, repeat_spec in Hf].
        cbn in Hf. injection Hf as <-. pose proof (reachable_wf _ Hr0) as W0. split; [by apply valid_const|].
        intros env v V. rewrite sval_const by done. unfold sval. cbn. by rewrite (val_const _ _ _ V).
      + intros n Hn%elem_of_list_singleton. subst. by eexists.
    - intros p pi q u [[d v] m] Epq (Hr & Hli & Hnpi & Ho & Hnpo & Hlen & Hmemo & Hsrc). cbn [fst snd] in *.
      apply wp_bnd, on_new_wp. cbn [fst snd]. unfold wp, dv_pi. cbn [fst snd].
      pose proof (create_pi_r d Hr) as Hc. apply wp_elim in Hc as (f & d' & E & Hr' & -> & Hk & Hi' & Ho' & Hp' & Hpo' & _).
      rewrite E. cbn [mbind option_bind].
      assert (G : grows d d') by (split; [rewrite Hk|rewrite Hi'|rewrite Ho'; exists []; by rewrite app_nil_r]; by eexists).
      assert (Hpi : ins s !! length p = Some pi) by (rewrite Epq; by apply list_lookup_middle).
      assert (Hin : pi ∈ ins s) by (by eapply elem_of_list_lookup_2).
      pose proof (Hiv pi Hin) as Hps. apply memo_set_wp; [cbn; lia|]. cbn [fst snd].
      assert (Him : image d' (Sig pi false) (Sig (size d) false)).
      { split; [unfold valid, size; cbn; rewrite Hk, app_length; cbn; lia|]. intros env w V. unfold sval. cbn.
        rewrite (val_input _ _ _ V _ _ Hpi). rewrite (ev_input d' env (length p)); [done|by apply reachable_wf|].
        rewrite Hi', <- Hli. apply lookup_snoc_eq. }
      split; [done|]. rewrite Hi', app_length, Hli, Hp', Hnpi, Ho', Hpo', insert_length, app_length. cbn [length].
      split; [done|]. split; [lia|]. do 3 (split; [done|]). split.
      + intros n f Hf. destruct (decide (n = pi)) as [->|Hne].
        * rewrite list_lookup_insert in Hf by lia. injection Hf as <-. done.
        * rewrite list_lookup_insert_ne in Hf by done. eapply image_grows; [done|by apply Hmemo].
      + intros n Hn. destruct (decide (n = pi)) as [->|Hne].
        * rewrite list_lookup_insert by lia. eauto.
        * rewrite list_lookup_insert_ne by done. apply Hsrc. rewrite app_comm_cons in Hn. apply elem_of_app in Hn as [Hn|Hn%elem_of_list_singleton]; done. }
  apply wp_elim in Hwp as (u & [[d v] m] & E & Hr & Hli & Hnpi & Ho & Hnpo & Hlen & Hmemo & Hsrc). cbn [fst snd] in *.
  rewrite E. cbn [mbind option_bind fst snd]. unfold update_levels, pos. rewrite Ho, take_nil. cbn [foldM]. unfold ret.
  cbn [mbind option_bind fst snd]. eexists. split; [reflexivity|]. cbn [fst snd].
  split; [|split; [congruence|split; [congruence|done]]].
  split; cbn [fst snd]; [split; [done|cbn; apply repeat_length]|by rewrite Esz|done|done].
Qed.

Lemma balance_outputs x : binv x -> npi x.1.1 = npi s -> length (ins x.1.1) = npi s -> outs x.1.1 = [] -> npo x.1.1 = 0 ->
  wp (foldM (fun (_ : unit) o =>
      let! f := balance_rec srt s (S (size s)) (sidx o) in
      on_new (dv_po (sxor f (scompl o))) ;;; ret Datatypes.tt) Datatypes.tt (pos s)) x
    (fun _ y => reachable y.1.1 /\ npi y.1.1 = npi s /\ length (ins y.1.1) = npi s /\
      npo y.1.1 = length (pos s) /\ Forall2 (image y.1.1) (pos s) (outs y.1.1)).
Proof.
  intros Hx Hnpi Hli Ho Hnpo.
  eapply wp_mono; [apply (foldM_wp _ (fun p (_ : unit) y => binv y /\ npi y.1.1 = npi s /\ length (ins y.1.1) = npi s /\
      npo y.1.1 = length p /\ Forall2 (image y.1.1) p (outs y.1.1)))|].
  - do 4 (split; [done|]). rewrite Ho. constructor.
  - intros p o q u y Epq (Hy & Hnpi' & Hli' & Hnpo' & HF).
    assert (Hin : o ∈ pos s) by (rewrite Epq; apply elem_of_app; right; apply elem_of_list_here).
    assert (Hvo : valid s o). { pose proof (net_out _ W) as H. rewrite Forall_forall in H. apply H. by eapply take_elem. }
    apply wp_bnd. eapply wp_mono; [apply balance_rec_spec; [exact Hvo|specialize (Hbound (sidx o)); lia|done]|]. cbn beta.
    intros f z (Hz & He & Him). apply wp_bnd, on_new_wp. unfold wp, dv_po.
    assert (Him' : image z.1.1 o (sxor f (scompl o))) by (destruct o as [i c]; by apply image_const).
    pose proof Hz as [[Hrz Hlz] ? ? ?].
    pose proof (create_po_r z.1.1 (sxor f (scompl o)) Hrz (proj1 Him')) as Hc.
    apply wp_elim in Hc as (i & d' & E & Hr' & Hk & Hi' & Ho' & Hp' & Hpo' & _). rewrite E. cbn [mbind option_bind].
    destruct (lookup_lt_is_Some_2 (dv_lev z.1.2) (sidx (sxor f (scompl o)))) as [l Hl]; [rewrite Hlz; apply Him'|].
    rewrite Hl. cbn [mbind option_bind fst snd]. apply wp_ret. cbn [fst snd].
    assert (G : grows z.1.1 d') by (split; [rewrite Hk; exists []; by rewrite app_nil_r|rewrite Hi'; exists []; by rewrite app_nil_r|rewrite Ho'; by eexists]).
    pose proof He as [_ Ei Eo En Em _].
    split; [|split; [congruence|split; [congruence|split; [rewrite Hpo', Em, Hnpo', app_length; cbn; lia|]]]].
    + split; cbn [fst snd]; [split; cbn [fst snd dv_lev]; [done|]|done| |done].
      * unfold size. rewrite Hk. exact Hlz.
      * intros n g Hg. eapply image_grows; [done|by apply (bi_memo _ Hz)].
    + rewrite Ho', Eo. apply Forall2_app.
      * eapply Forall2_impl; [exact HF|]. intros a b Hab. eapply image_grows; [exact G|]. eapply image_ext; [exact He|exact Hab].
      * constructor; [|constructor]. by eapply image_grows.
  - cbn beta. intros _ y (Hy & ? & ? & ? & ?). pose proof Hy as [[? _] _ _ _]. done.
Qed.
End run.
