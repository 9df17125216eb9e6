From Verif Require Import Base Aig AigSem AigHash AigProofs AigApi AigReach Topo TopoProofs Clean NetProofs CleanProofs Depth.

Section proofs.
Variable cost : nat -> nat.
Variable cc : bool.
Notation pc := (path_cost cost cc).
Notation ec := (inverter_cost cc).
Lemma edge_cost_eq : edge_cost cc = inverter_cost cc.
Proof. reflexivity. Qed.

(* node kinds and their path costs *)
Lemma pc_source_inv s n w : network s -> n = 0 \/ n ∈ pis s -> pc s n w -> w = 0.
Proof.
  intros W Hn H. inversion H; subst; [done| |].
  - destruct Hn as [->|?]; [|done]. exfalso.
    pose proof (net_ins_nodup s W) as Hd; apply NoDup_cons in Hd as [Hd _]; done.
  - exfalso. eapply (source_no_fanin s n (sidx a) W).
    + destruct Hn as [->|Hn]; [apply elem_of_list_here|apply elem_of_list_further; by eapply take_elem].
    + exists a, b. auto.
Qed.

Lemma pc_register_inv s n w : network s -> n ∈ ins s -> n ∉ pis s -> pc s n w -> w = cost n.
Proof.
  intros W Hn Hp H. inversion H; subst; [|done|].
  - destruct H0 as [->|?]; [|done]. pose proof (net_ins_nodup s W) as Hd. by apply NoDup_cons in Hd as [Hd _].
  - exfalso. eapply (source_no_fanin s n (sidx a) W); [by apply elem_of_list_further|]. exists a, b. auto.
Qed.

Lemma pc_gate_inv s n a b w : network s -> ks s !! n = Some (a, b) -> n <> 0 -> a <> b -> pc s n w ->
  exists f w', (f = a \/ f = b) /\ pc s (sidx f) w' /\ w = w' + ec f + cost n.
Proof.
  intros W E Hn Hab H. assert (Hs : n ∈ 0 :: ins s -> False).
  { intros Hx. eapply (source_no_fanin s n (sidx a) W Hx). exists a, b. auto. }
  inversion H; subst.
  - exfalso. apply Hs. destruct H0 as [->|?]; [done|]. apply elem_of_list_further. by eapply take_elem.
  - exfalso. apply Hs. by apply elem_of_list_further.
  - rewrite E in H0. injection H0 as <- <-. by exists f, w0.
Qed.

Lemma is_pi_net s n : network s -> n < size s -> exists b, is_pi s n = Some b /\ (bool_decide (n = 0) || b = true <-> n = 0 \/ n ∈ pis s).
Proof.
  intros W Hn. destruct (lookup_lt_is_Some_2 (ks s) n Hn) as [[a b] E]. unfold is_pi. rewrite E. cbn.
  eexists. split; [done|]. rewrite orb_true_iff, bool_decide_eq_true, andb_true_iff, !bool_decide_eq_true. split.
  - intros [->|[-> Hd]]; [by left|]. destruct (net_ci _ W n b E) as [->|Hi]; [by left|right].
    apply elem_of_list_lookup in Hi as [k Hk]. destruct (net_in _ W k n Hk) as [_ E']. rewrite E in E'.
    assert (b = sig_of_data k) as -> by congruence. rewrite sdata_sig_of_data in Hd.
    apply (elem_of_list_lookup_2 _ k). unfold pis. by rewrite lookup_take.
  - intros [->|Hp]; [by left|right]. apply elem_of_list_lookup in Hp as [k Hk].
    unfold pis in Hk. apply lookup_take_Some in Hk as [Hk Hlt]. destruct (net_in _ W k n Hk) as [_ E']. rewrite E in E'.
    assert (a = sig_of_data k) as -> by congruence. assert (b = sig_of_data k) as -> by congruence.
    by rewrite sdata_sig_of_data.
Qed.

Lemma maximum_unique P w w' : maximum P w -> maximum P w' -> w = w'.
Proof. intros [H1 H2] [H3 H4]. pose proof (H2 _ H3). pose proof (H4 _ H1). lia. Qed.

(* maximum over the fanins of a list, 0 if there are none *)
Definition best (s : aig) (p : list signal) (l : nat) : Prop :=
  (forall f w, f ∈ p -> pc s (sidx f) w -> w + ec f <= l) /\
  (l = 0 \/ exists f w, f ∈ p /\ pc s (sidx f) w /\ l = w + ec f).

Lemma best_snoc s p f l c : best s p l -> maximum (pc s (sidx f)) c -> best s (p ++ [f]) (Nat.max l (c + ec f)).
Proof.
  intros [H1 H2] [H3 H4]. split.
  - intros g w Hg Hw. apply elem_of_app in Hg as [Hg|Hg].
    + specialize (H1 g w Hg Hw). lia.
    + apply elem_of_list_singleton in Hg as ->. specialize (H4 w Hw). lia.
  - destruct (Nat.max_dec l (c + ec f)) as [-> | ->].
    + destruct H2 as [->|(g & w & Hg & ?)]; [by left|right]. exists g, w. split; [apply elem_of_app; by left|done].
    + right. exists f, c. split; [apply elem_of_app; right; apply elem_of_list_here|done].
Qed.

Lemma best_gate s n a b l : network s -> ks s !! n = Some (a, b) -> n <> 0 -> a <> b ->
  (exists w, pc s (sidx a) w) ->
  best s [a; b] l -> maximum (pc s n) (l + cost n).
Proof.
  intros W E Hn Hab [wa Ha] [H1 H2]. split.
  - destruct H2 as [->|(f & w & Hf & Hw & ->)].
    + assert (wa + ec a <= 0) by (apply (H1 a); [apply elem_of_list_here|done]).
      assert (Hz : wa + ec a + cost n = 0 + cost n) by lia. rewrite <- Hz.
      apply (pc_gate cost cc s n a b a wa); auto.
    + apply (pc_gate cost cc s n a b f w); auto. apply elem_of_cons in Hf as [->|Hf]; [by left|].
      apply elem_of_list_singleton in Hf. by right.
  - intros w Hw. destruct (pc_gate_inv s n a b w W E Hn Hab Hw) as (f & w' & Hf & Hw' & ->).
    assert (Hf' : f ∈ [a; b]) by (destruct Hf as [-> | ->]; [apply elem_of_list_here|apply elem_of_list_further, elem_of_list_here]).
    specialize (H1 f w' Hf' Hw'). lia.
Qed.

(* ---- the traversal ---- *)
Definition vstate : Type := list nat * list nat.
Definition done_at (s : aig) (x : vstate) (k : nat) : Prop := exists l, x.2 !! k = Some l /\ maximum (pc s k) l.
Record vinv (s : aig) (tid : nat) (G : list nat) (x : vstate) : Prop := {
  vi_v : length x.1 = size s;
  vi_l : length x.2 = size s;
  vi_done : forall k, x.1 !! k = Some tid -> k ∈ G \/ done_at s x k;
  vi_zero : forall k, k < size s -> x.1 !! k <> Some tid -> x.2 !! k = Some 0;
  vi_closed : forall k c, x.1 !! k = Some tid -> k ∉ G -> fanin s k c -> x.1 !! c = Some tid
}.
Definition vpost (tid : nat) (n : nat) (s : aig) (x x' : vstate) : Prop :=
  (forall k, x.1 !! k = Some tid -> x'.1 !! k = Some tid) /\
  (forall k, x'.1 !! k = Some tid -> x.1 !! k = Some tid \/ rtc (fanin s) n k).

Lemma level_rec_spec s tid rank : network s -> (forall n m, fanin s n m -> rank m < rank n) ->
  forall fuel n G x, rank n < fuel -> n < size s -> (forall g, g ∈ G -> rank n < rank g) -> vinv s tid G x ->
  wp (level_rec cost cc s tid fuel n) x (fun l x' =>
    maximum (pc s n) l /\ vinv s tid G x' /\ x'.1 !! n = Some tid /\ vpost tid n s x x').
Proof.
  intros W Hrank. induction fuel as [|fuel IH]; intros n G x Hf Hn HG I; [lia|].
  unfold wp. cbn [level_rec].
  destruct (lookup_lt_is_Some_2 x.1 n) as [v Hv]; [by rewrite (vi_v _ _ _ _ I)|]. rewrite Hv. cbn [mbind option_bind].
  destruct (decide (v = tid)) as [->|Hvt].
  { destruct (vi_done _ _ _ _ I n Hv) as [Hg|(l & Hl & Hm)]; [specialize (HG n Hg); lia|].
    rewrite Hl. cbn. split; [done|]. split; [done|]. split; [done|]. split; auto. }
  assert (Hvn : x.1 !! n <> Some tid) by congruence.
  assert (Hx0 : forall k, <[n:=tid]> x.1 !! k = Some tid -> k = n \/ x.1 !! k = Some tid).
  { intros k Hk. destruct (decide (k = n)) as [->|Hkn]; [by left|right]. by rewrite list_lookup_insert_ne in Hk. }
  assert (Hx0n : <[n:=tid]> x.1 !! n = Some tid) by (apply list_lookup_insert; by rewrite (vi_v _ _ _ _ I)).
  assert (Hx0m : forall k, x.1 !! k = Some tid -> <[n:=tid]> x.1 !! k = Some tid).
  { intros k Hk. destruct (decide (k = n)) as [->|Hkn]; [done|]. by rewrite list_lookup_insert_ne. }
  destruct (is_pi_net s n W Hn) as (pi & Epi & Hpi). rewrite Epi. cbn [mbind option_bind].
  assert (Hfin : forall x1 l, vinv s tid (n :: G) x1 -> x1.1 !! n = Some tid -> maximum (pc s n) l ->
     (forall c, fanin s n c -> x1.1 !! c = Some tid) ->
     exists y, x1.2 !! n = Some y /\ vinv s tid G (x1.1, <[n:=l]> x1.2)).
  { intros x1 l I1 Hn1 Hmax Hcl. destruct (lookup_lt_is_Some_2 x1.2 n) as [y Hy]; [by rewrite (vi_l _ _ _ _ I1)|].
    exists y. split; [done|]. destruct I1 as [A1 A2 A3 A4 A5]. split; cbn.
    - done.
    - by rewrite insert_length.
    - intros k Hk. destruct (decide (k = n)) as [->|Hkn].
      + right. exists l. split; [apply list_lookup_insert; by rewrite A2|done].
      + destruct (A3 k Hk) as [Hg|(l' & Hl' & ?)].
        * apply elem_of_cons in Hg as [?|?]; [done|by left].
        * right. exists l'. cbn. rewrite list_lookup_insert_ne by done. done.
    - intros k Hk Hkt. rewrite list_lookup_insert_ne; [by apply A4|]. intros ->. done.
    - intros k c Hk Hkg Hc. destruct (decide (k = n)) as [->|Hkn]; [by apply Hcl|].
      apply (A5 k c); [done| |done]. intros [?|?]%elem_of_cons; done. }
  assert (I0 : vinv s tid (n :: G) (<[n:=tid]> x.1, x.2)).
  { destruct I as [A1 A2 A3 A4 A5]. split; cbn.
    - by rewrite insert_length.
    - done.
    - intros k [->|Hk]%Hx0; [left; apply elem_of_list_here|].
      destruct (A3 k Hk) as [?|?]; [left; by apply elem_of_list_further|by right].
    - intros k Hk Hkt. apply A4; [done|]. intros Hx. by apply Hkt, Hx0m.
    - intros k c [->|Hk]%Hx0 Hkg Hc; [exfalso; apply Hkg, elem_of_list_here|].
      apply Hx0m. apply (A5 k c); [done| |done]. intros Hg. by apply Hkg, elem_of_list_further. }
  destruct (bool_decide (n = 0) || pi) eqn:Eb.
  - apply proj1 in Hpi. specialize (Hpi eq_refl). rename Hpi into Eb2. assert (Hmax : maximum (pc s n) 0).
    { split; [by constructor|]. intros w Hw. by rewrite (pc_source_inv s n w W Eb2 Hw). }
    assert (Hnf : forall c, fanin s n c -> <[n:=tid]> x.1 !! c = Some tid).
    { intros c Hc. exfalso. eapply (source_no_fanin s n c W); [|exact Hc].
      destruct Eb2 as [->|?]; [apply elem_of_list_here|apply elem_of_list_further; by eapply take_elem]. }
    destruct (Hfin _ 0 I0 Hx0n Hmax Hnf) as (y & Hy & I1). cbn in Hy. rewrite Hy. cbn [mbind option_bind].
    split; [done|]. split; [exact I1|]. split; [done|]. split; [done|].
    cbn. intros k [->|Hk]%Hx0; [right; apply rtc_refl|by left].
  - assert (Hns : ~ (n = 0 \/ n ∈ pis s)) by (intros Hx; apply Hpi in Hx; congruence).
    destruct (lookup_lt_is_Some_2 (ks s) n Hn) as [[a b] E].
    assert (Hn0 : n <> 0) by tauto.
    unfold fanins. rewrite decide_False by done. unfold is_ci. rewrite E. cbn [mbind option_bind fst snd].
    destruct (bool_decide_reflect (a = b)) as [->|Hab].
    + (* register output *)
      cbn. assert (Hni : n ∈ ins s) by (destruct (net_ci _ W n b E); [done|done]).
      assert (Hmax : maximum (pc s n) (cost n)).
      { split; [apply pc_register; tauto|]. intros w Hw. rewrite (pc_register_inv s n w W Hni) by tauto. lia. }
      assert (Hnf : forall c, fanin s n c -> <[n:=tid]> x.1 !! c = Some tid).
      { intros c Hc. exfalso. eapply (source_no_fanin s n c W); [|exact Hc]. by apply elem_of_list_further. }
      destruct (Hfin _ (cost n) I0 Hx0n Hmax Hnf) as (y & Hy & I1). cbn in Hy. rewrite Hy. cbn [mbind option_bind].
      split; [done|]. split; [exact I1|]. split; [done|]. split; [done|].
      cbn. intros k [->|Hk]%Hx0; [right; apply rtc_refl|by left].
    + cbn [mbind option_bind fst snd].
      assert (Hfan : forall f, f ∈ [a; b] -> fanin s n (sidx f)).
      { intros f Hf'. exists a, b. split; [done|]. split; [done|]. split; [done|].
        apply elem_of_cons in Hf' as [->|Hf']; [by left|]. apply elem_of_list_singleton in Hf' as ->. by right. }
      assert (Hfold : wp (foldM (fun lvl f => let! c := level_rec cost cc s tid fuel (sidx f) in
              ret (Nat.max lvl (c + edge_cost cc f))) 0 [a; b]) (<[n:=tid]> x.1, x.2) (fun l x1 =>
          best s [a; b] l /\ vinv s tid (n :: G) x1 /\ x1.1 !! n = Some tid /\
          (forall f, f ∈ [a; b] -> x1.1 !! sidx f = Some tid /\ exists w, pc s (sidx f) w) /\
          (forall k, x.1 !! k = Some tid -> x1.1 !! k = Some tid) /\
          (forall k, x1.1 !! k = Some tid -> x.1 !! k = Some tid \/ rtc (fanin s) n k))).
      { eapply (foldM_wp _ (fun p l x1 => best s p l /\ vinv s tid (n :: G) x1 /\ x1.1 !! n = Some tid /\
          (forall f, f ∈ p -> x1.1 !! sidx f = Some tid /\ exists w, pc s (sidx f) w) /\
          (forall k, x.1 !! k = Some tid -> x1.1 !! k = Some tid) /\
          (forall k, x1.1 !! k = Some tid -> x.1 !! k = Some tid \/ rtc (fanin s) n k))).
        - split; [split; [intros f w Hx; by apply elem_of_nil in Hx|by left]|]. split; [done|]. split; [done|].
          split; [intros f Hx; by apply elem_of_nil in Hx|]. split; [done|].
          cbn. intros k [->|Hk]%Hx0; [right; apply rtc_refl|by left].
        - intros p f q l x1 Epq (Hbest & I1 & Hn1 & Hex & Hm1 & Hm2).
          assert (Hfe : f ∈ [a; b]) by (rewrite Epq; apply elem_of_app; right; apply elem_of_list_here).
          pose proof (Hfan f Hfe) as Hff. pose proof (Hrank _ _ Hff).
          apply wp_bnd. eapply wp_mono; [apply (IH (sidx f) (n :: G) x1); [lia|by eapply net_gate| |done]|].
          { intros g [->|Hg]%elem_of_cons; [lia|]. specialize (HG g Hg). lia. }
          cbn beta. intros c x2 (Hmax & I2 & Hn2 & Hp1 & Hp2). apply wp_ret.
          split; [by apply best_snoc|]. split; [done|]. split; [by apply Hp1|].
          split; [|split].
          + intros g [Hg|Hg]%elem_of_app.
            { destruct (Hex g Hg) as [? ?]. split; [by apply Hp1|done]. }
            apply elem_of_list_singleton in Hg as ->. split; [done|]. exists c. apply Hmax.
          + intros k Hk. by apply Hp1, Hm1.
          + intros k Hk. destruct (Hp2 k Hk) as [Hk'|Hk']; [by apply Hm2|right]. by eapply rtc_l. }
      apply wp_elim in Hfold as (l & x1 & E1 & Hbest & I1 & Hn1 & Hex & Hm1 & Hm2). rewrite E1. cbn [mbind option_bind].
      assert (Hmax : maximum (pc s n) (l + cost n)).
      { apply (best_gate s n a b); try done. apply Hex, elem_of_list_here. }
      assert (Hnf : forall c, fanin s n c -> x1.1 !! c = Some tid).
      { intros c (a' & b' & E' & _ & _ & Hc). rewrite E in E'. injection E' as <- <-.
        destruct Hc as [-> | ->]; apply Hex; [apply elem_of_list_here|apply elem_of_list_further, elem_of_list_here]. }
      destruct (Hfin x1 (l + cost n) I1 Hn1 Hmax Hnf) as (y & Hy & I2). rewrite Hy. cbn [mbind option_bind].
      split; [done|]. split; [exact I2|]. split; [done|]. split; [done|done].
Qed.

Lemma update_levels_spec s marks trav : network s -> length marks = size s -> Forall (fun m => m <= trav) marks ->
  exists v, update_levels cost cc s marks trav = Some v /\ length (dv_lev v) = size s /\
    (forall n, below_po s n -> exists l, level v n = Some l /\ maximum (pc s n) l) /\
    (forall n, n < size s -> ~ below_po s n -> level v n = Some 0) /\
    maximum (po_cost cost cc s) (dv_depth v).
Proof.
  intros W Hlen Hmk. destruct (net_rank s W) as (rank & Hrank & Hbound). unfold update_levels.
  assert (Hpo : forall f, f ∈ pos s -> sidx f < size s).
  { intros f Hf%take_elem. pose proof (net_out _ W) as Ho. rewrite Forall_forall in Ho. by apply Ho. }
  assert (G : wp (foldM (fun d f => let! c := level_rec cost cc s (trav + 1) (S (size s)) (sidx f) in
      ret (Nat.max d (c + edge_cost cc f))) 0 (pos s)) (marks, repeat 0 (size s)) (fun d x =>
      best s (pos s) d /\ vinv s (trav + 1) [] x /\ (forall f, f ∈ pos s -> x.1 !! sidx f = Some (trav + 1)) /\
      (forall k, x.1 !! k = Some (trav + 1) -> exists f, f ∈ pos s /\ rtc (fanin s) (sidx f) k))).
  { eapply (foldM_wp _ (fun p d x => best s p d /\ vinv s (trav + 1) [] x /\ (forall f, f ∈ p -> x.1 !! sidx f = Some (trav + 1)) /\
      (forall k, x.1 !! k = Some (trav + 1) -> exists f, f ∈ p /\ rtc (fanin s) (sidx f) k))).
    - assert (Hno : forall k, marks !! k <> Some (trav + 1)).
      { intros k Hk. rewrite Forall_lookup in Hmk. specialize (Hmk k _ Hk). lia. }
      split; [split; [intros f w Hx; by apply elem_of_nil in Hx|by left]|]. split; [|split].
      + split; cbn; [done|by rewrite repeat_length|intros k Hk; by destruct (Hno k)| |intros k c Hk; by destruct (Hno k)].
        intros k Hk _. by apply lookup_repeat_lt.
      + intros f Hx. by apply elem_of_nil in Hx.
      + intros k Hk. by destruct (Hno k).
    - intros p f q d x Epq (Hb & I & Hp & Hr).
      apply wp_bnd. eapply wp_mono; [apply (level_rec_spec s (trav + 1) rank W Hrank (S (size s)) (sidx f) [] x)|].
      + specialize (Hbound (sidx f)). lia.
      + apply Hpo. rewrite Epq. apply elem_of_app. right. apply elem_of_list_here.
      + intros g Hg. by apply elem_of_nil in Hg.
      + done.
      + cbn beta. intros c x' (Hmax & I' & Hn & Hp1 & Hp2). apply wp_ret.
        split; [by apply best_snoc|]. split; [done|]. split.
        * intros g [Hg|Hg]%elem_of_app; [by apply Hp1, Hp|]. by apply elem_of_list_singleton in Hg as ->.
        * intros k Hk. destruct (Hp2 k Hk) as [Hk'|Hk'].
          -- destruct (Hr k Hk') as (g & Hg & ?). exists g. split; [apply elem_of_app; by left|done].
          -- exists f. split; [apply elem_of_app; right; apply elem_of_list_here|done]. }
  apply wp_elim in G as (d & x & E & [Hb1 Hb2] & I & Hp & Hr). rewrite E. cbn. exists (DV x.2 d).
  split; [done|]. cbn. split; [apply I|].
  assert (Hvis : forall n, below_po s n -> x.1 !! n = Some (trav + 1)).
  { intros n (f & Hf & Hrtc). pose proof (Hp f Hf) as H0. revert H0. clear -Hrtc I.
    induction Hrtc as [n|n m k Hnm Hmk IH]; intros H0; [done|]. apply IH.
    eapply (vi_closed _ _ _ _ I n); [done| |done]. intros Hx. by apply elem_of_nil in Hx. }
  split; [|split; [|split]].
  - intros n Hn. destruct (vi_done _ _ _ _ I n (Hvis n Hn)) as [Hx|Hx]; [by apply elem_of_nil in Hx|exact Hx].
  - intros n Hn Hnb. apply (vi_zero _ _ _ _ I n Hn). intros Hx. apply Hnb. by apply Hr.
  - destruct Hb2 as [->|(f & w & Hf & Hw & ->)]; [by left|right]. by exists f, w.
  - intros w [->|(f & w' & Hf & Hw & ->)]; [lia|]. by apply Hb1.
Qed.

(* ---- creation through the view ---- *)
Definition same_below (s s' : aig) : Prop :=
  (exists t, ks s' = ks s ++ t) /\ (forall n, n < size s -> (n ∈ pis s' <-> n ∈ pis s)) /\
  (forall n, n < size s -> (n ∈ ins s' <-> n ∈ ins s)).

Lemma pc_stable s s' n w : wf s -> same_below s s' -> n < size s -> (pc s n w <-> pc s' n w).
Proof.
  intros W ([t Ht] & Hp & Hi) Hn. split; intros H.
  - revert Hn. induction H as [n H|n H1 H2|n a b f w E Hn0 Hab Hf H IH]; intros Hn.
    + apply pc_source. destruct H as [?|H]; [by left|right; by apply Hp].
    + apply pc_register; [by apply Hi|by rewrite Hp].
    + apply (pc_gate cost cc s' n a b); try done; [rewrite Ht; by apply lookup_app_l_Some|].
      apply IH. destruct (wf_gate _ W n a b E Hab) as (? & ? & ?). destruct Hf; subst; lia.
  - revert Hn. induction H as [n H|n H1 H2|n a b f w E Hn0 Hab Hf H IH]; intros Hn.
    + apply pc_source. destruct H as [?|H]; [by left|right; by apply Hp].
    + apply pc_register; [by apply Hi|by rewrite <- Hp].
    + rewrite Ht, lookup_app_l in E by done. apply (pc_gate cost cc s n a b); try done.
      apply IH. destruct (wf_gate _ W n a b E Hab) as (? & ? & ?). destruct Hf; subst; lia.
Qed.

Record dinv (x : aig * dview) : Prop := {
  di_reach : reachable x.1;
  di_ci : length (ins x.1) = npi x.1;
  di_co : length (outs x.1) = npo x.1;
  di_len : length (dv_lev x.2) <= size x.1;
  di_exact : forall n l, dv_lev x.2 !! n = Some l -> maximum (pc x.1 n) l;
  di_gate : forall n, n < size x.1 -> length (dv_lev x.2) <= n -> n ∈ ins x.1;
  di_out : forall f, f ∈ outs x.1 -> sidx f < length (dv_lev x.2);
  di_depth : cc = false -> maximum (po_cost cost cc x.1) (dv_depth x.2)
}.

Lemma pis_all s : length (ins s) = npi s -> pis s = ins s.
Proof. intros H. unfold pis. apply firstn_all2. lia. Qed.
Lemma pos_all s : length (outs s) = npo s -> pos s = outs s.
Proof. intros H. unfold pos. apply firstn_all2. lia. Qed.

Lemma po_cost_stable s s' : wf s -> same_below s s' -> outs s' = outs s -> npo s' = npo s ->
  forall w, po_cost cost cc s w <-> po_cost cost cc s' w.
Proof.
  intros W Hs Ho Hn w. unfold po_cost, pos. rewrite Ho, Hn. split; (intros [?|(f & w' & Hf & Hw & ?)]; [by left|right]);
    exists f, w'; (split; [done|]; split; [|done]); eapply (pc_stable s s'); try done;
    apply (wf_out _ W); by eapply take_elem.
Qed.

Lemma maximum_iff (P Q : nat -> Prop) w : (forall w, P w <-> Q w) -> maximum P w -> maximum Q w.
Proof. intros H [H1 H2]. split; [by apply H|]. intros w' Hw. by apply H2, H. Qed.

Lemma max_level_spec s lev : (forall n l, lev !! n = Some l -> maximum (pc s n) l) ->
  forall fs, Forall (fun f => sidx f < length lev) fs ->
  exists l, max_level cc lev fs = Some l /\ best s fs l /\ forall f, f ∈ fs -> exists w, pc s (sidx f) w.
Proof.
  intros Hex fs. induction 1 as [|f fs Hf Hfs IH].
  - exists 0. split; [done|]. split; [|intros f Hx; by apply elem_of_nil in Hx].
    split; [intros f w Hx; by apply elem_of_nil in Hx|by left].
  - destruct (lookup_lt_is_Some_2 lev (sidx f) Hf) as [l Hl]. destruct IH as (m & Em & [B1 B2] & Hw).
    cbn [max_level]. rewrite Hl, edge_cost_eq. cbn [mbind option_bind]. rewrite Em. cbn [mbind option_bind]. eexists. split; [done|].
    destruct (Hex _ _ Hl) as [H1 H2]. split.
    + split.
      * intros g w [->|Hg]%elem_of_cons Hgw; [specialize (H2 w Hgw); lia|]. specialize (B1 g w Hg Hgw). lia.
      * destruct (Nat.max_dec (l + ec f) m) as [-> | ->].
        -- right. exists f, l. split; [apply elem_of_list_here|done].
        -- destruct B2 as [->|(g & w & Hg & ?)]; [by left|right]. exists g, w. split; [by apply elem_of_list_further|done].
    + intros g [->|Hg]%elem_of_cons; [by exists l|by apply Hw].
Qed.

Lemma lookup_resize s lev n l : length lev <= size s -> resize_levels s lev !! n = Some l ->
  lev !! n = Some l \/ (length lev <= n < size s /\ l = 0).
Proof.
  intros Hle H. unfold resize_levels in H. destruct (decide (n < length lev)) as [Hn|Hn].
  - rewrite lookup_app_l in H by done. by left.
  - right. pose proof (lookup_lt_Some _ _ _ H) as Hlt. rewrite app_length, repeat_length in Hlt.
    rewrite lookup_app_r in H by lia. apply elem_of_list_lookup_2, elem_of_list_In, repeat_spec in H. split; [lia|done].
Qed.

Lemma resize_length s lev : length lev <= size s -> length (resize_levels s lev) = size s.
Proof. intros H. unfold resize_levels. rewrite app_length, repeat_length. lia. Qed.

Lemma dinv_init buckets : 0 < buckets -> dinv (dv_empty buckets).
Proof.
  intros Hb. assert (Hr : reachable (aig_init_n buckets)) by (by constructor).
  assert (W : network (aig_init_n buckets)) by (by apply wf_network, reachable_wf).
  split; try done.
  - intros [|n] l Hl; [|done]. cbn in Hl. injection Hl as <-. split; [constructor; by left|].
    intros w Hw. rewrite (pc_source_inv _ _ _ W (or_introl eq_refl) Hw). done.
  - cbn. intros n H1 H2. unfold size in H1. cbn in H1. lia.
  - cbn. intros f Hf. by apply elem_of_nil in Hf.
  - intros _. split; [by left|]. intros w [->|(f & w' & Hf & _)]; [done|]. cbn in Hf. by apply elem_of_nil in Hf.
Qed.

Lemma dinv_step x o x' : dinv x ->
  (match o with DPi => True | DAnd a b => valid x.1 a /\ valid x.1 b | DPo f => valid x.1 f end) ->
  dstep cost cc o x = Some (tt, x') -> dinv x'.
Proof.
  intros [Hr Hci Hco Hlen Hex Hg Ho Hd] Hv Hs. destruct x as [s v]. cbn in *.
  pose proof (reachable_wf s Hr) as W.
  destruct o as [|a b|f]; unfold dstep in Hs.
  - (* input *)
    unfold dv_pi, bnd in Hs. pose proof (create_pi_r s Hr) as H. apply wp_elim in H as (f & s' & E & H).
    cbn [fst snd] in Hs. rewrite E in Hs. cbn in Hs. injection Hs as <-.
    destruct H as (Hr' & -> & Hks & Hins & Hout & Hnpi & Hnpo & _).
    pose proof (reachable_wf s' Hr') as W'.
    assert (Hci' : length (ins s') = npi s') by (rewrite Hins, Hnpi, app_length; cbn; lia).
    assert (Hsz : size s' = S (size s)) by (unfold size; rewrite Hks, app_length; cbn; lia).
    assert (Hin : forall n, n < size s -> (n ∈ ins s' <-> n ∈ ins s)).
    { intros n Hn. rewrite Hins, elem_of_app, elem_of_list_singleton. split; [intros [?| ->]; [done|lia]|by left]. }
    assert (Hsb : same_below s s').
    { split; [by eexists|]. split; [|done]. rewrite (pis_all s Hci), (pis_all s' Hci'). done. }
    split; cbn; try done.
    + by rewrite Hout, Hnpo.
    + lia.
    + intros n l Hl. eapply maximum_iff; [|by apply Hex]. intros w. apply pc_stable; try done.
      apply lookup_lt_Some in Hl. lia.
    + intros n Hn Hl. destruct (decide (n = size s)) as [->|Hne].
      * rewrite Hins. apply elem_of_app. right. apply elem_of_list_here.
      * apply Hin; [lia|]. apply Hg; lia.
    + by rewrite Hout.
    + intros Hc. eapply maximum_iff; [|by apply Hd]. apply po_cost_stable; done.
  - (* and *)
    destruct Hv as [Hva Hvb]. unfold dv_and, bnd in Hs.
    pose proof (create_and_r s a b Hr Hva Hvb) as H. pose proof (create_and_cases s a b W Hva Hvb) as Hc.
    apply wp_elim in H as (f & s' & E & Hr' & He & Hvf & _). unfold wp in Hc. rewrite E in Hc. destruct Hc as [_ Hc].
    cbn [fst snd] in Hs. rewrite E in Hs. cbn in Hs. pose proof (reachable_wf s' Hr') as W'.
    assert (Hci' : length (ins s') = npi s') by (by rewrite (ext_ins _ _ He), (ext_npi _ _ He)).
    destruct Hc as [->|(Hks & -> & Hno & Hne1 & Hne2)].
    { rewrite decide_True in Hs by done. cbn in Hs. injection Hs as <-. by split. }
    assert (Hsz : size s' = S (size s)) by (unfold size; rewrite Hks, app_length; cbn; lia).
    rewrite decide_False in Hs by lia.
    destruct (order a b) as [a' b'] eqn:Eo. cbn in Hne1, Hne2.
    assert (Hab : a' <> b') by (intros ->; done).
    assert (Hk : ks s' !! size s = Some (a', b')) by (rewrite Hks; apply lookup_snoc_eq).
    pose proof (wf_size s W) as Hs0.
    assert (Hsb : same_below s s').
    { destruct He as [? E1 E2 E3 E4 E5]. split; [done|]. unfold pis. rewrite E1, E3. done. }
    set (lev := resize_levels s' (dv_lev v)) in *.
    assert (Hlev : length lev = size s') by (apply resize_length; lia).
    assert (Hlex : forall n l, lev !! n = Some l -> n <> size s -> maximum (pc s' n) l).
    { intros n l Hl Hn. apply lookup_resize in Hl as [Hl|[Hn' ->]]; [| |lia].
      - eapply maximum_iff; [|by apply Hex]. intros w. apply pc_stable; try done. apply lookup_lt_Some in Hl. lia.
      - assert (Hi : n ∈ pis s'). { rewrite pis_all by done. rewrite (ext_ins _ _ He). apply Hg; lia. }
        split; [by constructor; right|]. intros w Hw.
        rewrite (pc_source_inv s' n w (wf_network _ W') (or_intror Hi) Hw). done. }
    destruct (wf_gate _ W' _ _ _ Hk Hab) as (Ha0 & Hab' & Hb').
    unfold on_add in Hs. fold lev in Hs.
    assert (Hfs : fanins s' (size s) = Some [a'; b']).
    { unfold fanins. rewrite decide_False by lia. unfold is_ci. rewrite Hk. cbn. by rewrite bool_decide_eq_false_2. }
    rewrite Hfs in Hs. cbn [mbind option_bind] in Hs.
    assert (Hml : exists l, max_level cc lev [a'; b'] = Some l /\ best s' [a'; b'] l /\ exists w, pc s' (sidx a') w).
    { destruct (lookup_lt_is_Some_2 lev (sidx a')) as [la Hla]; [lia|].
      destruct (lookup_lt_is_Some_2 lev (sidx b')) as [lb Hlb]; [lia|].
      pose proof (Hlex _ _ Hla ltac:(lia)) as Ma. pose proof (Hlex _ _ Hlb ltac:(lia)) as Mb.
      exists (Nat.max (la + ec a') (Nat.max (lb + ec b') 0)). cbn. rewrite Hla, Hlb. cbn. split; [done|].
      split; [|exists la; apply Ma]. rewrite Nat.max_0_r.
      pose proof (best_snoc s' [] a' 0 la) as B1. cbn in B1.
      assert (B0 : best s' [] 0) by (split; [intros g w Hx; by apply elem_of_nil in Hx|by left]).
      pose proof (best_snoc s' [a'] b' _ lb (B1 B0 Ma) Mb) as B2. exact B2. }
    destruct Hml as (l & El & Hbest & Hexw). rewrite El in Hs. cbn [mbind option_bind] in Hs.
    destruct (lookup_lt_is_Some_2 lev (size s)) as [y Hy]; [lia|]. rewrite Hy in Hs. cbn in Hs. injection Hs as <-.
    assert (Hmax : maximum (pc s' (size s)) (l + cost (size s))).
    { apply (best_gate s' (size s) a' b'); try done; [by apply wf_network|lia]. }
    split; cbn; try done.
    + by rewrite (ext_outs _ _ He), (ext_npo _ _ He).
    + rewrite insert_length. lia.
    + intros n l' Hl'. destruct (decide (n = size s)) as [->|Hn].
      * rewrite list_lookup_insert in Hl' by lia. by injection Hl' as <-.
      * rewrite list_lookup_insert_ne in Hl' by done. by apply Hlex.
    + rewrite insert_length. intros n H1 H2. lia.
    + rewrite insert_length, Hlev. intros g Hg'. by apply (wf_out _ W').
    + intros Hc. eapply maximum_iff; [|by apply Hd]. apply po_cost_stable; try done; apply He.
  - (* output *)
    unfold dv_po, bnd in Hs. pose proof (create_po_r s f Hr Hv) as H. apply wp_elim in H as (i & s' & E & H).
    cbn [fst snd] in Hs. rewrite E in Hs. cbn in Hs. destruct H as (Hr' & Hks & Hins & Hout & Hnpi & Hnpo & _).
    destruct (dv_lev v !! sidx f) as [l|] eqn:El; [|done]. cbn in Hs. injection Hs as <-.
    assert (Hsz : size s' = size s) by (unfold size; by rewrite Hks).
    assert (Hsb : same_below s s').
    { split; [exists []; by rewrite app_nil_r|]. unfold pis. by rewrite Hins, Hnpi. }
    assert (Hst : forall n w, n < size s -> pc s n w <-> pc s' n w) by (intros; by apply pc_stable).
    split; cbn; try done.
    + by rewrite Hins, Hnpi.
    + rewrite Hout, app_length, Hnpo. cbn. lia.
    + lia.
    + intros n l' Hl'. eapply maximum_iff; [|by apply Hex]. intros w. apply Hst. apply lookup_lt_Some in Hl'. lia.
    + rewrite Hsz, Hins. done.
    + rewrite Hout. intros g [Hg'|Hg']%elem_of_app; [by apply Ho|]. apply elem_of_list_singleton in Hg' as ->.
      by apply lookup_lt_Some in El.
    + intros Hc. specialize (Hd Hc). destruct (Hex _ _ El) as [M1 M2].
      assert (Hec : ec f = 0) by (unfold inverter_cost; by rewrite Hc).
      assert (Hpc : forall w, po_cost cost cc s' w <-> po_cost cost cc s w \/ pc s (sidx f) w).
      { intros w. unfold po_cost, pos. rewrite (firstn_all2 (outs s')) by (rewrite Hout, app_length, Hnpo; cbn; lia).
        rewrite (firstn_all2 (outs s)) by lia. rewrite Hout. split.
        - intros [?|(g & w' & Hg' & Hw & ->)]; [by left; left|]. apply elem_of_app in Hg' as [Hg'|Hg'].
          + left. right. exists g, w'. split; [done|]. split; [|done]. apply Hst; [|done]. apply (wf_out _ W). done.
          + apply elem_of_list_singleton in Hg' as ->. right. rewrite Hec, Nat.add_0_r. apply Hst; done.
        - intros [[?|(g & w' & Hg' & Hw & ->)]|Hw]; [by left| |].
          + right. exists g, w'. split; [apply elem_of_app; by left|]. split; [|done]. apply Hst; [|done]. by apply (wf_out _ W).
          + right. exists f, w. split; [apply elem_of_app; right; apply elem_of_list_here|].
            rewrite Hec, Nat.add_0_r. split; [|done]. by apply Hst. }
      destruct Hd as [D1 D2]. split.
      * apply Hpc. destruct (Nat.max_dec (dv_depth v) l) as [-> | ->]; [by left|by right].
      * intros w [Hw|Hw]%Hpc; [specialize (D2 w Hw)|specialize (M2 w Hw)]; lia.
Qed.

Lemma dreach_inv x : dreach cost cc x -> dinv x.
Proof. induction 1; [by apply dinv_init|by eapply dinv_step]. Qed.
End proofs.
