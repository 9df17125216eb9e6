From stdpp Require Import sorting.
From Verif Require Import Base Aig AigSem Cnf Choice ChoiceSat ChoiceCompute ChoiceComputeProofs ChoiceClasses ChoiceClassesProofs.

Lemma set_reprs_length l q rs : length (set_reprs l q rs) = length rs.
Proof. revert rs. induction l as [|n l IH]; intros rs; [done|]. cbn. unfold set_reprs in IH. by rewrite IH, insert_length. Qed.
Lemma set_reprs_in l q rs n : n ∈ l -> n < length rs -> set_reprs l q rs !! n = Some q.
Proof.
  revert rs. induction l as [|m l IH]; intros rs Hn Hl; [by apply elem_of_nil in Hn|]. cbn.
  destruct (decide (n ∈ l)) as [Hi|Hi]; [apply IH; [done|by rewrite insert_length]|].
  apply elem_of_cons in Hn as [->|Hn]; [|done]. clear IH.
  enough (G : forall rs', rs' !! m = Some q -> foldl (fun rs n => <[n := q]> rs) rs' l !! m = Some q) by (apply G; by apply list_lookup_insert).
  induction l as [|k l IH]; intros rs' E; [done|]. cbn. apply IH; [set_solver|]. rewrite list_lookup_insert_ne; [done|set_solver].
Qed.
Lemma set_reprs_out l q rs n : n ∉ l -> set_reprs l q rs !! n = rs !! n.
Proof.
  revert rs. induction l as [|m l IH]; intros rs Hn; [done|]. cbn. unfold set_reprs in IH. rewrite IH by set_solver.
  apply list_lookup_insert_ne. set_solver.
Qed.

Lemma filter_sorted (P : nat -> Prop) `{forall x, Decision (P x)} l : StronglySorted le l -> StronglySorted le (filter P l).
Proof.
  induction 1 as [|a l Hs IH Ha]; [constructor|]. rewrite filter_cons. destruct (decide (P a)); [|done]. constructor; [done|].
  rewrite Forall_forall in *. intros x [_ Hx]%elem_of_list_filter. by apply Ha.
Qed.
Lemma seq_sorted a n : StronglySorted le (seq a n).
Proof.
  revert a. induction n as [|n IH]; intros a; cbn; constructor; [apply IH|]. apply Forall_forall. intros x Hx%elem_of_seq. lia.
Qed.
Lemma class_elem sz c r l n : grouped sz c -> c_ids c !! r = Some l -> n ∈ l <-> c_reprs c !! n = Some r.
Proof.
  intros G E. pose proof (lookup_lt_Some _ _ _ E) as Hr. rewrite (gr_ids _ _ G) in Hr. rewrite (gr_class _ _ G r Hr) in E. injection E as <-.
  rewrite elem_of_list_filter, elem_of_seq. split; [by intros [? _]|]. intros H. split; [done|]. apply lookup_lt_Some in H. rewrite (gr_len _ _ G) in H. lia.
Qed.

Section refine.
Context {K : Type} `{EqDecision K} (key : nat -> K) (sz : nat).

Lemma split_class_spec same r l : (forall n, n ∈ l -> same r n = Some (bool_decide (key r = key n))) ->
  split_class same r l = Some (filter (fun n => key r = key n) l, filter (fun n => key r <> key n) l).
Proof using All.
  induction l as [|n l IH]; intros H; [done|]. cbn [split_class]. rewrite (H n) by apply elem_of_list_here. cbn [mbind option_bind].
  rewrite IH by (intros m Hm; apply H; by apply elem_of_list_further). cbn [mbind option_bind]. rewrite !filter_cons.
  destruct (decide (key r = key n)) as [E|E].
  - rewrite bool_decide_true by done. destruct (decide (key r <> key n)); [done|]. done.
  - rewrite bool_decide_false by done. destruct (decide (key r <> key n)); [done|]. done.
Qed.

(* what refining the class r of c does *)
Record refined (c : classes) (r : nat) (k : nat) (c' : classes) : Prop := {
  rf_grouped : grouped sz c';
  rf_other : forall n, c_reprs c !! n <> Some r -> c_reprs c' !! n = c_reprs c !! n;
  rf_same : forall n, c_reprs c !! n = Some r -> key r = key n -> c_reprs c' !! n = Some r;
  rf_diff : forall n, c_reprs c !! n = Some r -> key r <> key n -> exists q, c_reprs c' !! n = Some q /\ r < q /\ 0 < k;
  rf_new : forall n q, c_reprs c !! n = Some r -> c_reprs c' !! n = Some q -> c_reprs c !! q = Some r;
  rf_keep : forall n m, key n = key m -> c_reprs c !! n = c_reprs c !! m -> c_reprs c' !! n = c_reprs c' !! m
}.

Lemma split_step c r l q t : grouped sz c -> c_reprs c !! r = Some r -> c_ids c !! r = Some l ->
  filter (fun n => key r <> key n) l = q :: t ->
  let c' := Classes (<[q := q :: t]> (<[r := filter (fun n => key r = key n) l]> (c_ids c))) (set_reprs (q :: t) q (c_reprs c)) in
  refined c r 1 c' /\ c_reprs c' !! q = Some q /\ c_ids c' !! q = Some (q :: t) /\ is_Some (c_ids c !! q) /\
  (forall n, c_reprs c' !! n = Some q <-> c_reprs c !! n = Some r /\ key r <> key n) /\ r < q /\ length (q :: t) < length l.
Proof using All.
  intros G Hr El Enew c'. pose proof (class_elem sz c r l) as Hin.
  assert (Hnew : forall n, n ∈ q :: t <-> c_reprs c !! n = Some r /\ key r <> key n).
  { intros n. rewrite <- Enew, elem_of_list_filter. rewrite (Hin n G El). naive_solver. }
  assert (Hq : c_reprs c !! q = Some r /\ key r <> key q) by (apply Hnew, elem_of_list_here).
  assert (Hlt : forall n, n ∈ q :: t -> n < sz). { intros n [Hn _]%Hnew. apply lookup_lt_Some in Hn. by rewrite (gr_len _ _ G) in Hn. }
  assert (Hqs : q < sz) by (apply Hlt, elem_of_list_here).
  assert (Hrs : r < sz). { apply lookup_lt_Some in Hr. by rewrite (gr_len _ _ G) in Hr. }
  assert (Hrq : r < q). { destruct Hq as [H1 H2]. apply (gr_repr _ _ G) in H1 as [H1 _]. destruct (decide (r = q)) as [->|]; [done|lia]. }
  assert (Hmin : forall n, n ∈ q :: t -> q <= n).
  { assert (S : StronglySorted le (q :: t)).
    { rewrite <- Enew. rewrite (gr_class _ _ G r Hrs) in El. injection El as <-. 
      apply filter_sorted, filter_sorted, seq_sorted. }
    intros n Hn. apply StronglySorted_inv in S as [_ S]. rewrite Forall_forall in S. apply elem_of_cons in Hn as [->|Hn]; [done|by apply S]. }
  assert (Rin : forall n, n ∈ q :: t -> c_reprs c' !! n = Some q).
  { intros n Hn. unfold c'. cbn [c_reprs]. apply set_reprs_in; [done|]. rewrite (gr_len _ _ G). by apply Hlt. }
  assert (Rout : forall n, n ∉ q :: t -> c_reprs c' !! n = c_reprs c !! n).
  { intros n Hn. unfold c'. cbn [c_reprs]. by apply set_reprs_out. }
  assert (Rq : forall n, c_reprs c' !! n = Some q <-> n ∈ q :: t).
  { intros n. split; [|apply Rin]. intros E. destruct (decide (n ∈ q :: t)) as [|Hn]; [done|exfalso]. rewrite Rout in E by done.
    apply (gr_repr _ _ G) in E as [_ E]. destruct Hq as [H _]. rewrite E in H. injection H as ->. lia. }
  assert (G' : grouped sz c').
  { split.
    - unfold c'. cbn [c_reprs]. by rewrite set_reprs_length, (gr_len _ _ G).
    - intros n x E. destruct (decide (n ∈ q :: t)) as [Hn|Hn].
      + rewrite Rin in E by done. injection E as <-. split; [by apply Hmin|]. apply Rin, elem_of_list_here.
      + rewrite Rout in E by done. pose proof (gr_repr _ _ G _ _ E) as [H1 H2]. split; [done|]. rewrite Rout; [done|].
        intros [H3 H4]%Hnew. rewrite H2 in H3. injection H3 as ->. done.
    - unfold c'. cbn [c_ids]. rewrite !insert_length. apply G.
    - intros x Hx. assert (Ec : c_ids c' = <[q := q :: t]> (<[r := filter (fun n => key r = key n) l]> (c_ids c))) by done.
      rewrite Ec. clear Ec. clearbody c'. destruct (decide (x = q)) as [->|Hxq].
      { rewrite list_lookup_insert by (rewrite insert_length, (gr_ids _ _ G); done). f_equal. rewrite <- Enew.
        rewrite (gr_class _ _ G r Hrs) in El. injection El as <-. rewrite list_filter_filter. apply list_filter_iff. intros n.
        rewrite (Rq n), (Hnew n). tauto. }
      rewrite list_lookup_insert_ne by done. destruct (decide (x = r)) as [->|Hxr].
      { rewrite list_lookup_insert by (rewrite (gr_ids _ _ G); done). f_equal.
        rewrite (gr_class _ _ G r Hrs) in El. injection El as <-. rewrite list_filter_filter. apply list_filter_iff. intros n.
        destruct (decide (n ∈ q :: t)) as [Hn|Hn].
        - rewrite Rin by done. apply Hnew in Hn as [H1 H2]. split; [naive_solver|]. intros [= ->]. lia.
        - rewrite Rout by done. rewrite Hnew in Hn. split; [by intros [_ ?]|]. intros H. split; [|done].
          destruct (decide (key r = key n)); [done|]. by destruct Hn. }
      rewrite list_lookup_insert_ne by done. rewrite (gr_class _ _ G x Hx). f_equal. apply list_filter_iff. intros n.
      destruct (decide (n ∈ q :: t)) as [Hn|Hn].
      + rewrite Rin by done. apply Hnew in Hn as [H1 H2]. rewrite H1. split; intros [= ->]; done.
      + by rewrite Rout by done. }
  split; [split|].
  - done.
  - intros n Hn. apply Rout. intros [? _]%Hnew. done.
  - intros n Hn Hk. rewrite Rout; [done|]. intros [_ ?]%Hnew. done.
  - intros n Hn Hk. exists q. split; [apply Rin; by apply Hnew|]. split; [done|lia].
  - intros n x Hn E. destruct (decide (n ∈ q :: t)) as [Hi|Hi].
    + rewrite (Rin n Hi) in E. injection E as <-. apply Hq.
    + rewrite (Rout n Hi), Hn in E. by injection E as <-.
  - intros n m Hk E. destruct (decide (n ∈ q :: t)) as [Hn|Hn].
    + rewrite (Rin n Hn). symmetry. apply Rin. apply Hnew in Hn as [H1 H2]. apply Hnew. split; [by rewrite <- E|by rewrite <- Hk].
    + rewrite (Rout n Hn), (Rout m); [done|]. intros [H1 H2]%Hnew. apply Hn, Hnew. split; [by rewrite E|by rewrite Hk].
  - split; [apply Rin, elem_of_list_here|]. split; [unfold c'; cbn [c_ids]; rewrite list_lookup_insert by (rewrite insert_length, (gr_ids _ _ G); done); done|].
    split; [apply lookup_lt_is_Some_2; by rewrite (gr_ids _ _ G)|]. split; [intros n; by rewrite Rq, Hnew|]. split; [done|].
    rewrite <- Enew. assert (Hrl : r ∈ l) by (by apply (Hin r G El)). clear -Hrl. induction l as [|a l IH]; [by apply elem_of_nil in Hrl|].
    rewrite filter_cons. pose proof (filter_length (fun n => key r <> key n) l) as Hf.
    apply elem_of_cons in Hrl as [->|Hrl]; [destruct (decide (key a <> key a)); [done|cbn; lia]|]. specialize (IH Hrl).
    destruct (decide (key r <> key a)); cbn; lia.
Qed.

Lemma refine_one_class_spec same rec fuel c r l : grouped sz c -> c_reprs c !! r = Some r -> c_ids c !! r = Some l -> length l < fuel ->
  (forall n m, n < sz -> m < sz -> same n m = Some (bool_decide (key n = key m))) ->
  exists k c', refine_one_class fuel same rec r c = Some (k, c') /\ refined c r k c'.
Proof using All.
  intros G Hr El Hf Hs. revert c r l G Hr El Hf. induction fuel as [|fuel IH]; intros c r l G Hr El Hf; [lia|].
  cbn [refine_one_class]. rewrite El. cbn [mbind option_bind].
  assert (Hlt : forall n x, c_reprs c !! n = Some x -> n < sz). { intros n x E. apply lookup_lt_Some in E. by rewrite (gr_len _ _ G) in E. }
  rewrite split_class_spec.
  2: { intros n Hn. apply Hs; [by eapply Hlt|]. apply (class_elem sz c r l n G El) in Hn. by eapply Hlt. }
  cbn [mbind option_bind]. destruct (filter (fun n => key r <> key n) l) as [|q t] eqn:Enew.
  - exists 0, c. split; [done|]. split; try done; [|intros n q Hn E; rewrite Hn in E; by injection E as <-]. intros n Hn Hk. exfalso.
    assert (n ∈ filter (fun n => key r <> key n) l) as H; [|rewrite Enew in H; by apply elem_of_nil in H].
    apply elem_of_list_filter. split; [done|]. by apply (class_elem sz c r l n G El).
  - destruct (split_step c r l q t G Hr El Enew) as (F & Hq & Eq & [lq Elq] & Hin & Hrq & Hlen). rewrite Elq. cbn [mbind option_bind].
    set (c1 := Classes _ _) in *. destruct (rec && bool_decide (1 < length (q :: t))) eqn:Erec.
    + apply andb_true_iff in Erec as [-> _].
      destruct (IH c1 q (q :: t) (rf_grouped _ _ _ _ F) Hq Eq) as (k & c2 & E & F2); [lia|].
      rewrite E. cbn [mbind option_bind]. exists (S k), c2. split; [done|]. split.
      * apply F2.
      * intros n Hn. rewrite (rf_other _ _ _ _ F2); [by apply F|]. rewrite (Hin n). by intros [? _].
      * intros n Hn Hk. rewrite (rf_other _ _ _ _ F2); [by apply F|]. rewrite (Hin n). by intros [_ ?].
      * intros n Hn Hk. assert (E1 : c_reprs c1 !! n = Some q) by (by apply Hin). destruct (decide (key q = key n)) as [Ek|Ek].
        -- exists q. split; [by apply F2|]. split; [done|lia].
        -- destruct (rf_diff _ _ _ _ F2 n E1 Ek) as (x & Ex & Hx & _). exists x. split; [done|]. split; [lia|lia].
      * intros n x Hn E'. destruct (decide (c_reprs c1 !! n = Some q)) as [E1|E1].
        -- pose proof (rf_new _ _ _ _ F2 n x E1 E') as H. by apply Hin in H as [? _].
        -- rewrite (rf_other _ _ _ _ F2 n E1) in E'. by apply (rf_new _ _ _ _ F n x).
      * intros n m Hk E'. apply F2; [done|]. by apply F.
    + exists 1, c1. split; [done|]. done.
Qed.

(* refining all classes *)
Definition uniform (c : classes) : Prop := forall n r, c_reprs c !! n = Some r -> key r = key n.
Lemma refine_all (f : nat -> classes -> option classes) c :
  (forall i c', grouped sz c' -> i < sz -> exists c'', f i c' = Some c'' /\ (c_reprs c' !! i = Some i -> exists k, refined c' i k c'') /\ (c_reprs c' !! i <> Some i -> c'' = c')) ->
  grouped sz c -> exists c', each f (seq 0 sz) c = Some c' /\ grouped sz c' /\ uniform c' /\
    forall n m, key n = key m -> c_reprs c !! n = c_reprs c !! m -> c_reprs c' !! n = c_reprs c' !! m.
Proof using All.
  intros Hf G. destruct (each_total f (fun p c' => grouped sz c' /\ (forall n r, r < length p -> c_reprs c' !! n = Some r -> key r = key n) /\
    forall n m, key n = key m -> c_reprs c !! n = c_reprs c !! m -> c_reprs c' !! n = c_reprs c' !! m) (seq 0 sz) c) as (c' & E & G' & U & Hk).
  - split; [done|]. split; [|done]. intros n r Hr. cbn in Hr. lia.
  - intros p i q c' El (G' & U & Hk).
    assert (Ei : i = length p). { assert (seq 0 sz !! length p = Some i) as H by (rewrite El; by rewrite lookup_app_r, Nat.sub_diag by lia). apply lookup_seq in H. lia. }
    assert (Hi : i < sz). { assert (length (seq 0 sz) = sz) as H by apply seq_length. rewrite El, app_length in H. cbn in H. lia. }
    destruct (Hf i c' G' Hi) as (c'' & E & H1 & H2). exists c''. split; [done|].
    destruct (decide (c_reprs c' !! i = Some i)) as [Er|Er].
    + destruct (H1 Er) as [k F]. split; [apply F|]. split.
      * intros n r Hr E'. rewrite app_length in Hr. cbn in Hr. destruct (decide (c_reprs c' !! n = Some i)) as [En|En].
        -- destruct (decide (key i = key n)) as [Ek|Ek].
           ++ rewrite (rf_same _ _ _ _ F n En Ek) in E'. injection E' as <-. done.
           ++ destruct (rf_diff _ _ _ _ F n En Ek) as (x & Ex & Hx & _). rewrite E' in Ex. injection Ex as <-. lia.
        -- rewrite (rf_other _ _ _ _ F n En) in E'. apply (U n); [|done]. assert (r <> i) by (by intros ->). lia.
      * intros n m Ek E'. apply F; [done|]. by apply Hk.
    + rewrite (H2 Er). split; [done|]. split; [|done]. intros n r Hr E'. rewrite app_length in Hr. cbn in Hr.
      apply (U n); [|done]. assert (r <> i); [|lia]. intros ->. by apply (gr_repr _ _ G') in E' as [_ ?].
  - exists c'. split; [done|]. split; [done|]. split; [|done]. intros n r E'. apply (U n); [|done]. rewrite seq_length.
    pose proof (gr_repr _ _ G' _ _ E') as [_ H]. apply lookup_lt_Some in H. by rewrite (gr_len _ _ G') in H.
Qed.
End refine.
