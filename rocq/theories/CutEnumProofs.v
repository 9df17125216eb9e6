From Verif Require Import Base Aig AigSem AigProofs Tt TtProofs TtCache TtCacheProofs Cut CutProofs CutEnum.

(* success with Q, or failure allowed by T *)
Definition wpt {S A} (T : Prop) (m : M S A) (s : S) (Q : A -> S -> Prop) : Prop :=
  match m s with Some (a, s') => Q a s' | None => T end.

Lemma wpt_bnd {S A B} T (m : M S A) (k : A -> M S B) s (Q : B -> S -> Prop) :
  wpt T m s (fun a s' => wpt T (k a) s' Q) -> wpt T (bnd m k) s Q.
Proof. unfold wpt, bnd. destruct (m s) as [[a s']|]; done. Qed.
Lemma wpt_mono {S A} T (m : M S A) s (P Q : A -> S -> Prop) :
  wpt T m s P -> (forall a s', P a s' -> Q a s') -> wpt T m s Q.
Proof. unfold wpt. destruct (m s) as [[a s']|]; eauto. Qed.

Lemma foldM_wpt {S A B} T (f : B -> A -> M S B) (I : nat -> B -> S -> Prop) l :
  forall i, (forall j b s x, i <= j < i + length l -> x ∈ l -> I j b s -> wpt T (f b x) s (I (Datatypes.S j))) ->
  forall b s, I i b s -> wpt T (foldM f b l) s (I (i + length l)).
Proof.
  induction l as [|x l IH]; intros i Hf b s HI; cbn [foldM length].
  - rewrite Nat.add_0_r. done.
  - apply wpt_bnd. eapply wpt_mono; [apply (Hf i); [cbn; lia|constructor|exact HI]|].
    intros b' s' HI'. rewrite Nat.add_succ_r, <- Nat.add_succ_l. apply IH; [|done].
    intros. apply Hf; [cbn; lia|by constructor|done].
Qed.

Lemma foldM_wpt_at {S A B} T (f : B -> A -> M S B) (I : nat -> B -> S -> Prop) l :
  forall i, (forall j b s x, i <= j < i + length l -> l !! (j - i) = Some x -> I j b s -> wpt T (f b x) s (I (Datatypes.S j))) ->
  forall b s, I i b s -> wpt T (foldM f b l) s (I (i + length l)).
Proof.
  induction l as [|x l IH]; intros i Hf b s HI; cbn [foldM length].
  - rewrite Nat.add_0_r. done.
  - apply wpt_bnd. eapply wpt_mono; [apply (Hf i); [cbn; lia|by rewrite Nat.sub_diag|exact HI]|].
    intros b' s' HI'. rewrite Nat.add_succ_r, <- Nat.add_succ_l. apply IH; [|done].
    intros j b1 s1 y Hj Hy. apply Hf; [cbn; lia|]. by replace (j - i) with (Datatypes.S (j - Datatypes.S i)) by lia.
Qed.

Lemma mapM_wpt {S B} T (f : nat -> M S B) (I : nat -> S -> Prop) k :
  forall i, (forall j s, i <= j < i + k -> I j s -> wpt T (f j) s (fun _ => I (Datatypes.S j))) ->
  forall s, I i s -> wpt T (mapM f (seq i k)) s (fun _ => I (i + k)).
Proof.
  induction k as [|k IH]; intros i Hf s HI; cbn [seq mapM].
  - rewrite Nat.add_0_r. done.
  - apply wpt_bnd. eapply wpt_mono; [apply Hf; [lia|exact HI]|]. intros a s' HI'.
    apply wpt_bnd. eapply wpt_mono; [apply (IH (Datatypes.S i)); [|exact HI']|].
    + intros. apply Hf; [lia|done].
    + intros. unfold wpt, ret. by replace (i + Datatypes.S k) with (Datatypes.S i + k) by lia.
Qed.

(* ---- support positions ---- *)
Lemma find_from_spec sup x : forall pos, x ∈ sup ->
  exists i, find_from pos sup x = pos + i /\ sup !! i = Some x /\ forall j, j < i -> sup !! j <> Some x.
Proof.
  induction sup as [|y sup IH]; intros pos Hx; [by apply not_elem_of_nil in Hx|]. cbn.
  case_decide as E.
  - exists 0. split; [lia|]. subst. split; [done|]. intros; lia.
  - apply elem_of_cons in Hx as [->|Hx]; [done|]. destruct (IH (S pos) Hx) as (i & -> & Hi & Hm).
    exists (S i). split; [lia|]. split; [done|]. intros [|j] Hj; cbn; [congruence|]. apply Hm. lia.
Qed.

Lemma tt_support_spec sup : sorted sup -> forall sub itp, sorted sub ->
  (forall x, x ∈ sub -> exists i, itp <= i /\ sup !! i = Some x) ->
  let l := tt_support itp sub sup in
  length l = length sub /\ incr l /\ Forall (fun p => itp <= p /\ p < length sup) l /\
  forall k p, l !! k = Some p -> sup !! p = sub !! k.
Proof.
  intros Ss. induction sub as [|x sub IH]; intros itp Sb Hin; cbn.
  - split; [done|]. split; [intros i j a b _ H; by rewrite lookup_nil in H|]. split; [constructor|].
    intros k p H. by rewrite lookup_nil in H.
  - destruct (Hin x) as (i0 & Hi0 & Hx0); [constructor|].
    assert (Hxd : x ∈ drop itp sup).
    { apply elem_of_list_lookup. exists (i0 - itp). rewrite lookup_drop. rewrite <- Hx0. f_equal. lia. }
    destruct (find_from_spec _ _ itp Hxd) as (i & Ei & Hi & _). rewrite lookup_drop in Hi. rewrite Ei.
    apply sorted_cons in Sb as [B Sb].
    destruct (IH (itp + i) Sb) as (L & Inc & Bd & Lk).
    { intros y Hy. destruct (Hin y) as (j & Hj & Hyj); [by constructor|]. exists j. split; [|done].
      specialize (B _ Hy). destruct (decide (itp + i <= j)); [done|].
      assert (y < x); [|lia]. apply (Ss j (itp + i)); [lia|done..]. }
    split; [cbn; lia|]. split; [|split].
    + intros [|a] [|b] p q Hab Hp Hq; try lia; cbn in Hp, Hq.
      * injection Hp as <-. rewrite Forall_forall in Bd. destruct (Bd q) as [? ?]; [by eapply elem_of_list_lookup_2|].
        destruct (decide (itp + i = q)) as [<-|]; [|lia]. exfalso.
        pose proof (Lk _ _ Hq) as E. rewrite Hi in E. symmetry in E.
        specialize (B x ltac:(by eapply elem_of_list_lookup_2)). lia.
      * eapply (Inc a b); [lia|done..].
    + constructor.
      * split; [lia|]. by eapply lookup_lt_Some.
      * eapply Forall_impl; [exact Bd|]. cbn. lia.
    + intros [|k] p Hp; cbn in *; [by injection Hp as <-|]. by apply Lk.
Qed.

Lemma pick_spec leaves supp : Forall (fun i => i < length leaves) supp ->
  exists l, pick leaves supp = Some l /\ length l = length supp /\
    forall k i, supp !! k = Some i -> l !! k = leaves !! i.
Proof.
  induction supp as [|i supp IH]; intros H; cbn.
  - exists []. split; [done|]. split; [done|]. intros k i Hk. by rewrite lookup_nil in Hk.
  - apply Forall_cons in H as [Hi H]. destruct (lookup_lt_is_Some_2 leaves i Hi) as [x Hx]. rewrite Hx. cbn.
    destruct (IH H) as (l & -> & Hl & Hk). cbn. exists (x :: l). split; [done|]. split; [cbn; lia|].
    intros [|k] j Hj; cbn in *; [injection Hj as <-; by rewrite Hx|auto].
Qed.

Lemma pick_sorted leaves supp l : sorted leaves -> incr supp -> pick leaves supp = Some l ->
  (forall k i, supp !! k = Some i -> l !! k = leaves !! i) -> length l = length supp ->
  sorted l /\ forall x, x ∈ l -> x ∈ leaves.
Proof.
  intros Ss Hi Hp Hk Hl. split.
  - intros i j a b Hij Ha Hb. destruct (lookup_lt_is_Some_2 supp i) as [p Hp']; [apply lookup_lt_Some in Ha; lia|].
    destruct (lookup_lt_is_Some_2 supp j) as [q Hq]; [apply lookup_lt_Some in Hb; lia|].
    rewrite (Hk _ _ Hp') in Ha. rewrite (Hk _ _ Hq) in Hb. eapply (Ss p q); [|done..].
    eapply (Hi i j); done.
  - intros x [i Hx]%elem_of_list_lookup. destruct (lookup_lt_is_Some_2 supp i) as [p Hp']; [apply lookup_lt_Some in Hx; lia|].
    rewrite (Hk _ _ Hp') in Hx. by eapply elem_of_list_lookup_2.
Qed.

(* ---- the function of a cut ---- *)
Definition leafval (v : nat -> bool) (leaves : list nat) (k : nat) : bool :=
  match leaves !! k with Some l => v l | None => false end.

Lemma child_tt_spec {D} (s : aig) m (c : cut D) res ca t :
  cut_wf c -> sorted res -> (forall x, x ∈ lvs c -> x ∈ res) ->
  cache_get (fid c) ca = Some t -> tt_wf t -> cut_function s m (lvs c) t ->
  exists t', child_tt c res ca = Some t' /\ tt_wf t' /\ nv t' = length res /\
    forall env v, valuation s env v -> tt_eval t' (leafval v res) = v m.
Proof.
  intros [Sc _] Sr Hsub Hg Hw [Hn Hf]. unfold child_tt. rewrite Hg. cbn [mbind option_bind].
  assert (Hle : length (lvs c) <= length res) by (apply NoDup_sub_length; [by apply sorted_NoDup|done]).
  destruct (extend_spec t (length res)) as (t1 & -> & Hw1 & Hn1 & He1); [lia|]. cbn [mbind option_bind].
  destruct (tt_support_spec res Sr (lvs c) 0 Sc) as (L & Inc & Bd & Lk).
  { intros x Hx. apply Hsub in Hx as [i Hi]%elem_of_list_lookup. exists i. split; [lia|done]. }
  destruct (expand_spec (tt_support 0 (lvs c) res) Inc t1) as (t2 & E2 & Hw2 & Hn2 & He2).
  { eapply Forall_impl; [exact Bd|]. cbn. lia. }
  { done. }
  exists t2. split; [done|]. split; [done|]. split; [lia|]. intros env v Hv.
  rewrite (He2) with (y := leafval v (lvs c)).
  - rewrite He1. by apply (Hf env).
  - intros x y Hxy. rewrite !He1. apply eval_ext. intros k Hk. apply Hxy. lia.
  - intros k p Hp. unfold leafval. by rewrite (Lk _ _ Hp).
Qed.

Lemma cache_get_prefix l ca ca' t : (exists r, cdata ca' = cdata ca ++ r) -> cache_get l ca = Some t -> cache_get l ca' = Some t.
Proof.
  intros [r Hr]. unfold cache_get. destruct (cdata ca !! N.to_nat (l / 2)) as [u|] eqn:E; [|done].
  rewrite Hr, (lookup_app_l_Some _ _ _ _ E). done.
Qed.

Lemma cache_insert_len t ca : length (cdata (cache_insert t ca).2) <= S (length (cdata ca)).
Proof. unfold cache_insert. destruct (assoc _ _); cbn; [lia|]. rewrite app_length. cbn. lia. Qed.

Lemma insert_get t ca l ca' : cinv ca -> tt_wf t -> cache_insert t ca = (l, ca') ->
  (N.of_nat (S (length (cdata ca))) <= 2 ^ 31)%N ->
  cinv ca' /\ (exists r, cdata ca' = cdata ca ++ r) /\ length (cdata ca') <= S (length (cdata ca)) /\
  cache_get l ca' = Some t.
Proof.
  intros Hc Hw E Hb. pose proof (cache_insert_len t ca) as Hl. rewrite E in Hl. cbn in Hl.
  destruct (insert_spec ca t l ca' Hc Hw E) as (Hc' & Hp & Hg & Ho); [lia|].
  split; [done|]. split; [done|]. split; [done|]. unfold cache_get. rewrite Hg. cbn. rewrite Ho. f_equal.
  unfold norm. destruct (get_bit t 0); [apply not_not|done].
Qed.

Section enum.
Context {D : Type} (truth : bool) (lt : cut D -> cut D -> bool)
  (upd : list (cutset D) -> nat -> cut D -> D) (d0 : D) (cap max : nat)
  (s : aig) (ps : cut_ps).
Hypothesis Hwf : wf s.
Hypothesis Hmax : 0 < max.
Hypothesis Hcomb : length (ins s) = npi s.
Hypothesis Hsize : (N.of_nat (2 + max * max * size s) <= 2 ^ 31)%N.

(* calls that do not fail *)
Definition Safe : Prop :=
  2 <= cap /\ 2 * cut_size ps <= cap /\ (truth = true -> minimize ps = false) /\ (2 <= cut_limit ps < 2 ^ 32)%N.

(* calls that leave cuts at every gate *)
Definition nomin : Prop := truth = true -> minimize ps = false.
Definition Full : Prop := 2 <= cut_size ps /\ nomin /\ (3 <= cut_limit ps < 2 ^ 32)%N.

Record good (n : nat) (ca : cache) (c : cut D) : Prop := {
  g_wf : cut_wf c;
  g_len : length (lvs c) <= Nat.max 1 (cut_size ps);
  g_cut : (truth = true -> minimize ps = false) -> is_cut s n (lvs c);
  g_fun : truth = true -> exists t, cache_get (fid c) ca = Some t /\ tt_wf t /\ cut_function s n (lvs c) t;
  g_le : forall l, l ∈ lvs c -> l <= n /\ (l = n -> lvs c = [n]) /\ rtc (fanin s) n l
}.

Lemma good_prefix n ca ca' c : (exists r, cdata ca' = cdata ca ++ r) -> good n ca c -> good n ca' c.
Proof.
  intros Hp [H1 H2 H3 H4 H5]. split; [done..| |done]. intros Ht. destruct (H4 Ht) as (t & Hg & Hr). exists t.
  split; [|done]. by eapply cache_get_prefix.
Qed.

Lemma wf_gate_lt n a b : ks s !! n = Some (a, b) -> n <> 0 -> a <> b -> sidx a < n /\ sidx b < n.
Proof. intros Hk H0 Hab. destruct (wf_gate s Hwf n a b Hk Hab) as (? & ? & ?). lia. Qed.

Lemma compute_tt_spec n a b c1 c2 (res : cut D) ca : truth = true ->
  ks s !! n = Some (a, b) -> n <> 0 -> a <> b ->
  cinv ca -> (N.of_nat (S (length (cdata ca))) <= 2 ^ 31)%N ->
  good (sidx a) ca c1 -> good (sidx b) ca c2 -> cut_wf res -> length (lvs res) <= cap ->
  lvs res = set_union (lvs c1) (lvs c2) -> length (lvs res) <= cut_size ps ->
  exists c' ca', compute_truth_table cap s ps n c1 c2 res ca = Some (c', ca') /\
    cinv ca' /\ (exists r, cdata ca' = cdata ca ++ r) /\ length (cdata ca') <= S (length (cdata ca)) /\
    good n ca' c' /\ length (lvs c') <= cap /\ (minimize ps = false -> lvs c' = lvs res).
Proof.
  intros Ht Hk H0 Hab Hc Hb G1 G2 Wr Lr Hu Lc.
  assert (Hsub1 : forall x, x ∈ lvs c1 -> x ∈ lvs res) by (intros; rewrite Hu, set_union_elem; auto).
  assert (Hsub2 : forall x, x ∈ lvs c2 -> x ∈ lvs res) by (intros; rewrite Hu, set_union_elem; auto).
  destruct (g_fun _ _ _ G1 Ht) as (t1 & Hg1 & Hw1 & Hf1).
  destruct (g_fun _ _ _ G2 Ht) as (t2 & Hg2 & Hw2 & Hf2).
  destruct (child_tt_spec s (sidx a) c1 (lvs res) ca t1 (g_wf _ _ _ G1) (cw_sorted _ Wr) Hsub1 Hg1 Hw1 Hf1) as (u1 & E1 & Wu1 & Nu1 & Ev1).
  destruct (child_tt_spec s (sidx b) c2 (lvs res) ca t2 (g_wf _ _ _ G2) (cw_sorted _ Wr) Hsub2 Hg2 Hw2 Hf2) as (u2 & E2 & Wu2 & Nu2 & Ev2).
  unfold compute_truth_table. rewrite Hk, E1, E2. cbn [mbind option_bind fst snd].
  set (t := tt_and (tt_not_if u1 (scompl a)) (tt_not_if u2 (scompl b))).
  assert (Hnn : nv (tt_not_if u1 (scompl a)) = nv (tt_not_if u2 (scompl b))) by (rewrite !nv_not_if; lia).
  assert (Wt : tt_wf t) by (apply and_wf; [by apply not_if_wf..|done]).
  assert (Nt : nv t = length (lvs res)) by (unfold t; cbn; rewrite nv_not_if; lia).
  assert (Et : forall env v, valuation s env v -> tt_eval t (leafval v (lvs res)) = v n).
  { intros env v Hv. unfold t. rewrite eval_and by (by apply not_if_wf || done).
    rewrite !eval_not_if by done. rewrite (Ev1 env v Hv), (Ev2 env v Hv).
    symmetry. apply (val_gate s env v Hv n a b Hk H0 Hab). }
  assert (Cut1 : (truth = true -> minimize ps = false) -> is_cut s n (lvs res)).
  { intros Hm p i Hp Hi. inversion Hp as [|n' m p' i' Hfan Hp' E3 E4 E5]; subst.
    - exfalso. apply elem_of_list_lookup in Hi as [k Hi]. destruct (wf_in s Hwf _ _ Hi) as [_ Hi']. congruence.
    - destruct Hfan as (a' & b' & Hk' & _ & _ & Hor). rewrite Hk in Hk'. injection Hk' as <- <-.
      destruct Hor as [-> | ->].
      + destruct (g_cut _ _ _ G1 Hm p' i Hp' Hi) as (l & Hl1 & Hl2). exists l. split; [by constructor|auto].
      + destruct (g_cut _ _ _ G2 Hm p' i Hp' Hi) as (l & Hl1 & Hl2). exists l. split; [by constructor|auto]. }
  assert (Hle : forall l, l ∈ lvs res -> l < n /\ rtc (fanin s) n l).
  { intros l. rewrite Hu, set_union_elem. destruct (wf_gate_lt n a b Hk H0 Hab) as [La Lb].
    intros [Hl|Hl]; [apply (g_le _ _ _ G1) in Hl as (Hl & _ & Hp)|apply (g_le _ _ _ G2) in Hl as (Hl & _ & Hp)];
      (split; [lia|]); (eapply rtc_l; [|exact Hp]); exists a, b; auto. }
  assert (Hle' : forall L l, (forall l, l ∈ L -> l ∈ lvs res) -> l ∈ L -> l <= n /\ (l = n -> L = [n]) /\ rtc (fanin s) n l).
  { intros L l HL Hl. apply HL, Hle in Hl as [Hl Hp]. split; [lia|]. split; [lia|done]. }
  destruct (minimize ps) eqn:Em.
  - pose proof (min_base_spec t Wt) as Hmb. destruct (min_base t) as [t' supp].
    destruct Hmb as (Wt' & Nt' & Inc & Bd & Hnv & Hev). case_decide as Hsl.
    + destruct (cache_insert t' ca) as [f ca'] eqn:Ei.
      destruct (insert_get t' ca f ca' Hc Wt' Ei Hb) as (Hc' & Hp & Hl & Hg).
      eexists _, _. split; [done|]. split; [done|]. split; [done|]. split; [done|]. split; [|split; [done|done]].
      split; cbn [lvs sg fid]; [split; apply Wr|lia|intros Hm; specialize (Hm Ht); congruence| |by intros ?; apply Hle'].
      intros _. exists t'. split; [done|]. split; [done|]. split; [lia|]. intros env v Hv.
      change (fun k => _) with (leafval v (lvs res)). rewrite <- (Et env v Hv). apply Hev.
      intros k p Hkp. f_equal. symmetry.
      assert (Hid : forall k p, supp !! k = Some p -> p = k); [|by apply Hid].
      clear - Inc Bd Hsl Nt. intros k p Hkp.
      assert (G : forall d k p, k + d = length supp - 1 -> supp !! k = Some p -> p <= k).
      { rewrite Forall_forall in Bd. induction d as [|d IH]; intros k0 p0 Hd Hp0.
        - pose proof (Bd p0 ltac:(by eapply elem_of_list_lookup_2)). lia.
        - destruct (lookup_lt_is_Some_2 supp (S k0)) as [q Hq]; [lia|].
          specialize (IH (S k0) q ltac:(lia) Hq). specialize (Inc k0 (S k0) p0 q ltac:(lia) Hp0 Hq). lia. }
      pose proof (incr_ge _ Inc _ _ Hkp). pose proof (lookup_lt_Some _ _ _ Hkp).
      specialize (G (length supp - 1 - k) k p ltac:(lia) Hkp). lia.
    + assert (Hsl' : length supp <= nv t').
      { destruct (decide (length supp = 0)); [lia|].
        destruct (lookup_lt_is_Some_2 supp (length supp - 1)) as [q Hq]; [lia|].
        pose proof (incr_ge _ Inc _ _ Hq). rewrite Forall_forall in Bd.
        specialize (Bd q ltac:(by eapply elem_of_list_lookup_2)). lia. }
      destruct (shrink_spec t' (length supp) Wt' Hsl') as (t3 & -> & Wt3 & Nt3 & Ev3).
      { intros i Hi1 Hi2. apply Hnv; lia. }
      cbn [mbind option_bind].
      destruct (pick_spec (lvs res) supp) as (l & Hpk & Ll & Lk); [by rewrite <- Nt|].
      destruct (pick_sorted _ _ _ (cw_sorted _ Wr) Inc Hpk Lk Ll) as [Sl Subl].
      rewrite Hpk. cbn [mbind option_bind]. unfold set_leaves.
      assert (Hll : length l <= length (lvs res)) by (apply NoDup_sub_length; [by apply sorted_NoDup|done]).
      rewrite decide_True by lia. cbn [mbind option_bind lvs sg fid dat].
      destruct (cache_insert t3 ca) as [f ca'] eqn:Ei.
      destruct (insert_get t3 ca f ca' Hc Wt3 Ei Hb) as (Hc' & Hp & Hl & Hg).
      eexists _, _. split; [done|]. split; [done|]. split; [done|]. split; [done|]. split; [|split; [cbn; lia|done]].
      split; cbn [lvs sg fid]; [by split|lia|intros Hm; specialize (Hm Ht); congruence| |by intros ?; apply Hle'].
      intros _. exists t3. split; [done|]. split; [done|]. split; [lia|]. intros env v Hv.
      change (fun k => _) with (leafval v l). rewrite <- (Et env v Hv), Ev3. apply Hev.
      intros k p Hkp. unfold leafval. by rewrite (Lk _ _ Hkp).
  - destruct (cache_insert t ca) as [f ca'] eqn:Ei.
    destruct (insert_get t ca f ca' Hc Wt Ei Hb) as (Hc' & Hp & Hl & Hg).
    eexists _, _. split; [done|]. split; [done|]. split; [done|]. split; [done|]. split; [|split; [done|done]].
    split; cbn [lvs sg fid]; [split; apply Wr|lia|intros _; by apply Cut1; intros _| |by intros ?; apply Hle'].
    intros _. exists t. split; [done|]. split; [done|]. split; [lia|]. exact Et.
Qed.

(* a cut set in use *)
Definition set_good (n : nat) (ca : cache) (cs : cutset D) : Prop :=
  cs_ok max cs /\ forall c, c ∈ vis cs -> good n ca c /\ (n <> 0 -> lvs c <> []).

Record loop_inv (n : nat) (x0 : st) (e : Prop) (j : nat) (nc : cut D) (x : st) : Prop := {
  li_sets : exists rc, x.1 = <[n := rc]> x0.1 /\ set_good n x.2 rc /\
    (nomin -> forall c, c ∈ vis rc -> 2 <= length (lvs c)) /\ (e -> vis rc <> []);
  li_cinv : cinv x.2;
  li_pre : exists r, cdata x.2 = cdata x0.2 ++ r;
  li_len : length (cdata x.2) <= length (cdata x0.2) + j
}.

Lemma good_data n ca c d : good n ca c -> good n ca (Cut (lvs c) (sg c) (fid c) d).
Proof. intros [[H1 H2] H3 H4 H5 H6]. split; [by split|done..]. Qed.

Lemma loop_weak n x0 (e e' : Prop) j nc x : (e' -> e) -> loop_inv n x0 e j nc x -> loop_inv n x0 e' j nc x.
Proof. intros H [(rc & ? & ? & ? & He) ? ? ?]. split; [|done..]. exists rc. tauto. Qed.

Lemma union_two (l1 l2 : list nat) a b : sorted l1 -> sorted l2 -> a <> b -> l1 = [a] \/ 2 <= length l1 -> l2 = [b] \/ 2 <= length l2 ->
  2 <= length (set_union l1 l2).
Proof.
  intros S1 S2 Hab H1 H2.
  assert (G : forall l, sorted l -> (forall x, x ∈ l -> x ∈ l1 \/ x ∈ l2) -> length l <= length (set_union l1 l2)).
  { intros l Sl Hl. apply NoDup_sub_length; [by apply sorted_NoDup|]. intros x Hx. apply set_union_elem. by apply Hl. }
  destruct H1 as [->|H1]; [|specialize (G l1 S1 ltac:(auto)); lia].
  destruct H2 as [->|H2]; [|specialize (G l2 S2 ltac:(auto)); lia].
  change 2 with (length [a; b]). apply NoDup_sub_length.
  - apply NoDup_cons. split; [by intros ?%elem_of_list_singleton|apply NoDup_singleton].
  - intros x Hx. apply set_union_elem. apply elem_of_cons in Hx as [->|Hx]; [left; apply elem_of_list_here|by right].
Qed.

Lemma merge_pair_inv n a b x0 : ks s !! n = Some (a, b) -> n <> 0 -> a <> b -> n < length x0.1 ->
  forall lim, (N.of_nat (length (cdata x0.2) + lim) <= 2 ^ 31)%N ->
  forall c1 c2, good (sidx a) x0.2 c1 -> good (sidx b) x0.2 c2 -> lvs c1 <> [] ->
  (nomin -> 2 <= length (set_union (lvs c1) (lvs c2))) ->
  forall e j nc x, S j <= lim -> loop_inv n x0 e j nc x ->
  wpt (~ Safe) (merge_pair truth lt upd cap s ps n c1 c2 nc) x (loop_inv n x0 (e \/ cap >= 2 * cut_size ps /\ length (set_union (lvs c1) (lvs c2)) <= cut_size ps) (S j)).
Proof.
  intros Hk H0 Hab Hn lim Hlim c1 c2 G1 G2 N1 N2 e j nc x Hj [(rc & Ex & [Hrc Hgood] & Htwo & He) Hc Hp Hl].
  assert (Hstep : forall nc' (e' : Prop), (e' -> vis rc <> []) -> loop_inv n x0 e' (S j) nc' x).
  { intros nc' e' He'. split; [exists rc; split; [done|]; split; [by split|done]|done|done|lia]. }
  unfold wpt, merge_pair.
  destruct (merge cap c1 c2 nc (cut_size ps)) as [[nc1|]|] eqn:Em; cbn [mbind option_bind].
  2:{ apply Hstep. intros [?|[Hcap Hu]]; [auto|]. destruct (merge_spec cap c1 c2 nc (cut_size ps) (g_wf _ _ _ G1) (g_wf _ _ _ G2)) as [M1 _].
      rewrite M1 in Em by lia. destruct (Nat.leb_spec (length (set_union (lvs c1) (lvs c2))) (cut_size ps)); [done|lia]. }
  2:{ intros (S1 & S2 & _ & _). destruct (merge_spec cap c1 c2 nc (cut_size ps) (g_wf _ _ _ G1) (g_wf _ _ _ G2)) as [M1 _].
      rewrite M1 in Em; [done|]. pose proof (set_union_length (lvs c1) (lvs c2)).
      pose proof (g_len _ _ _ G1). pose proof (g_len _ _ _ G2). lia. }
  destruct (merge_success _ _ _ _ _ _ (g_wf _ _ _ G1) (g_wf _ _ _ G2) Em) as (Hu & Wn & Lk & Lc & Ef & Ed).
  rewrite Ex, list_lookup_insert by done. cbn [mbind option_bind].
  destruct (is_dominated rc nc1) eqn:Edom.
  { apply Hstep. intros _ E0. unfold is_dominated in Edom. by rewrite E0 in Edom. }
  (* the computed cut *)
  assert (Hcomp : exists nc2 ca, (if truth then compute_truth_table cap s ps n c1 c2 nc1 x.2 else Some (nc1, x.2)) = Some (nc2, ca) /\
    cinv ca /\ (exists r, cdata ca = cdata x.2 ++ r) /\ length (cdata ca) <= S (length (cdata x.2)) /\
    good n ca nc2 /\ length (lvs nc2) <= cap /\ ((truth = true -> minimize ps = false) -> lvs nc2 = lvs nc1)).
  { destruct truth eqn:Ht.
    - destruct (compute_tt_spec n a b c1 c2 nc1 x.2 Ht Hk H0 Hab) as (c' & ca' & E & ? & ? & ? & ? & ? & ?);
        try done; [lia| | |].
      + by eapply good_prefix.
      + by eapply good_prefix.
      + eexists _, _. split; [done|]. split_and!; auto.
    - eexists _, _. split; [done|]. split; [done|]. split; [exists []; by rewrite app_nil_r|]. split; [lia|].
      split; [|done]. split; [done|lia| |congruence|].
      2:{ intros l. rewrite Hu, set_union_elem. destruct (wf_gate_lt n a b Hk H0 Hab) as [La Lb].
          intros [Hl'|Hl']; [apply (g_le _ _ _ G1) in Hl' as (Hl' & _ & Hq)|apply (g_le _ _ _ G2) in Hl' as (Hl' & _ & Hq)];
            (split; [lia|]); (split; [lia|]); (eapply rtc_l; [|exact Hq]); exists a, b; auto. }
      intros Hm p i Hp' Hi. inversion Hp' as [|n' m p' i' Hfan Hp2 E3 E4 E5]; subst.
      + exfalso. apply elem_of_list_lookup in Hi as [k Hi]. destruct (wf_in s Hwf _ _ Hi) as [_ Hi']. congruence.
      + destruct Hfan as (a' & b' & Hk' & _ & _ & Hor). rewrite Hk in Hk'. injection Hk' as <- <-. rewrite Hu.
        destruct Hor as [-> | ->].
        * destruct (g_cut _ _ _ G1 Hm p' i Hp2 Hi) as (l & Hl1 & Hl2). exists l. split; [by constructor|].
          apply set_union_elem. auto.
        * destruct (g_cut _ _ _ G2 Hm p' i Hp2 Hi) as (l & Hl1 & Hl2). exists l. split; [by constructor|].
          apply set_union_elem. auto. }
  destruct Hcomp as (nc2 & ca & -> & Hcca & Hpca & Hlca & Gn & Ln & Hsame). cbn [mbind option_bind].
  set (nc3 := Cut (lvs nc2) (sg nc2) (fid nc2) (upd (<[n:=rc]> x0.1) n nc2)).
  assert (G3 : good n ca nc3) by by apply good_data.
  assert (Hfinal : forall rc', cs_insert lt cap nc3 rc = Some rc' -> lvs nc3 <> [] ->
    loop_inv n x0 (e \/ cap >= 2 * cut_size ps /\ length (set_union (lvs c1) (lvs c2)) <= cut_size ps) (S j) nc3 (<[n := rc']> (<[n := rc]> x0.1), ca)).
  { intros rc' Er Hne. destruct (cs_insert_spec lt max cap nc3 rc Hrc Hmax (g_wf _ _ _ G3) Hne Ln) as (rc2 & Er2 & Hok2 & _ & Hcase).
    rewrite Er in Er2. injection Er2 as <-. split; cbn [fst snd].
    - exists rc'. rewrite list_insert_insert. split; [done|].
      assert (Hor : forall c, c ∈ vis rc' -> c = nc3 \/ c ∈ vis rc).
      { intros c Hcin. set (keep := filter (fun o => dominates nc3 o = false) (vis rc)) in *.
        assert (Hkeep : forall o, o ∈ keep -> o ∈ vis rc) by (intros o [_ ?]%elem_of_list_filter; done).
        assert (Htk : forall o q, o ∈ take q keep -> o ∈ keep).
        { intros o q Ho. rewrite <- (take_drop q keep). apply elem_of_app. auto. }
        assert (Hdr : forall o q (l : list (cut D)), o ∈ drop q l -> o ∈ l).
        { intros o q l Ho. rewrite <- (take_drop q l). apply elem_of_app. auto. }
        destruct Hcase as [(_ & _ & Hv)|[(_ & _ & Hv)|(_ & Hv)]]; rewrite Hv in Hcin.
        - right. auto.
        - rewrite !elem_of_app, elem_of_list_singleton in Hcin. destruct Hcin as [?|[?|Hd]]; eauto.
        - rewrite !elem_of_app, elem_of_list_singleton in Hcin. destruct Hcin as [?|[?|Hd]]; eauto. }
      split; [split; [done|]|split].
      + intros c Hcin. destruct (Hor c Hcin) as [->|Hin]; [done|]. split; [|by apply Hgood]. eapply good_prefix; [exact Hpca|]. by apply Hgood.
      + intros Hm c Hcin. destruct (Hor c Hcin) as [->|Hin]; [|by apply Htwo]. cbn [lvs nc3]. rewrite (Hsame Hm), Hu. by apply N2.
      + intros _ E0. rewrite E0 in Hcase. destruct Hcase as [(Hk1 & _ & Hv)|[(_ & _ & Hv)|(_ & Hv)]].
        * rewrite <- Hv in Hk1. cbn in Hk1. lia.
        * by destruct (take _ _) in Hv.
        * by destruct (take _ _) in Hv.
    - done.
    - destruct Hp as [r Hr], Hpca as [r' Hr']. exists (r ++ r'). by rewrite Hr', Hr, app_assoc.
    - lia. }
  destruct (decide (lvs nc3 = [])) as [E0|Hne].
  - (* only a minimised constant function gets here *)
    unfold cs_insert. rewrite decide_True by done. cbn. intros (_ & _ & Hmin & _).
    specialize (Hsame Hmin). cbn in E0. rewrite Hsame, Hu in E0.
    destruct (lvs c1) as [|l1 r1]; [done|].
    assert (Hl1 : l1 ∈ set_union (l1 :: r1) (lvs c2)) by (apply set_union_elem; left; constructor).
    rewrite E0 in Hl1. by apply not_elem_of_nil in Hl1.
  - destruct (cs_insert lt cap nc3 rc) as [rc'|] eqn:Er; cbn [mbind option_bind].
    + by apply Hfinal.
    + destruct (cs_insert_spec lt max cap nc3 rc Hrc Hmax (g_wf _ _ _ G3) Hne Ln) as (rc2 & Er2 & _). congruence.
Qed.

(* ---- one node ---- *)
Definition node_done (n : nat) (ca : cache) (cs : cutset D) : Prop :=
  set_good n ca cs /\ ((1 <= cut_limit ps)%N -> (cut_limit ps < 2 ^ 32)%N -> (N.of_nat (length (vis cs)) <= cut_limit ps)%N) /\
  (n <> 0 -> nomin -> forall c, c ∈ vis cs -> lvs c = [n] \/ 2 <= length (lvs c)) /\
  (n <> 0 -> Full -> 2 * cut_size ps <= cap -> (exists c, c ∈ vis cs /\ lvs c = [n]) /\ (is_gate s n -> exists c, c ∈ vis cs /\ 2 <= length (lvs c))).

Record inv (n : nat) (x : st (D := D)) : Prop := {
  i_len : length x.1 = size s;
  i_done : forall m cs, m < n -> x.1 !! m = Some cs -> node_done m x.2 cs;
  i_todo : forall m cs, n <= m -> x.1 !! m = Some cs -> cs = cs_new max d0;
  i_cinv : cinv x.2;
  i_c0 : cdata x.2 !! 0 = Some (tt_const 0 false);
  i_c1 : cdata x.2 !! 1 = Some (tt_var 1 0);
  i_clen : length (cdata x.2) <= 2 + max * max * n
}.

Lemma init_inv : inv 0 (st_init d0 max (size s)).
Proof.
  split; cbn [fst snd st_init].
  - apply repeat_length.
  - intros; lia.
  - intros m cs _ H. apply elem_of_list_lookup_2, elem_of_list_In, repeat_spec in H. done.
  - assert (H1 : cinv (cache_insert (tt_const 0 false) cache_empty).2).
    { eapply insert_spec; [apply cinv_empty|apply const_wf|apply surjective_pairing|vm_compute; congruence]. }
    eapply insert_spec; [exact H1|apply var_wf|apply surjective_pairing|vm_compute; congruence].
  - vm_compute. reflexivity.
  - vm_compute. reflexivity.
  - vm_compute. lia.
Qed.

Lemma vis_len (cs : cutset D) : cs_ok max cs -> length (vis cs) = cn cs.
Proof. intros [H1 H2]. unfold vis. rewrite take_length. lia. Qed.

(* appending a zero or unit cut *)
Lemma add_leaf_spec n l f (x : st (D := D)) cs : x.1 !! n = Some cs -> cs_ok max cs -> cn cs < max -> length l <= cap ->
  exists d cs', add_leaf_cut truth cap n l f x = Some (Datatypes.tt, (<[n := cs']> x.1, x.2)) /\
    cs_ok max cs' /\ exists f', (truth = true -> f' = f) /\ vis cs' = vis cs ++ [Cut l (sign_of l) f' d].
Proof.
  intros Hx [Hl Hn] Hroom Hcap. unfold add_leaf_cut. rewrite Hx. cbn [mbind option_bind]. unfold add_cut.
  destruct (lookup_lt_is_Some_2 (arr cs) (cn cs)) as [c Hc]; [lia|]. rewrite Hc. cbn [mbind option_bind].
  unfold set_leaves. rewrite decide_True by done. cbn [mbind option_bind arr cn].
  rewrite list_lookup_insert by lia. cbn [mbind option_bind lvs sg dat].
  assert (Ht : forall y : cut D, take (S (cn cs)) (<[cn cs := y]> (arr cs)) = take (cn cs) (arr cs) ++ [y]).
  { intros y. rewrite (take_S_r _ _ y) by (apply list_lookup_insert; lia). f_equal. apply take_insert. lia. }
  destruct truth.
  - do 2 eexists. split; [done|]. rewrite list_insert_insert. split; [split; cbn; rewrite ?insert_length; lia|].
    exists f. split; [done|]. unfold vis. cbn [arr cn]. apply Ht.
  - do 2 eexists. split; [done|]. split; [split; cbn; rewrite ?insert_length; lia|].
    exists (fid c). split; [done|]. unfold vis. cbn [arr cn]. apply Ht.
Qed.

Lemma unit_good n ca d f : n <> 0 -> cdata ca !! 1 = Some (tt_var 1 0) -> (truth = true -> f = 2%N) ->
  good n ca (Cut [n] (sign_of [n]) f d).
Proof.
  intros H0 Hc Hf. split; cbn [lvs fid].
  - split; cbn; [|done]. apply sorted_cons. split; [intros y ?%not_elem_of_nil; done|apply sorted_nil].
  - cbn. lia.
  - intros _ p i Hp Hi. exists n. split; [|constructor]. inversion Hp; subst; constructor.
  - intros Ht. rewrite (Hf Ht). exists (tt_var 1 0). split; [|split; [apply var_wf|]].
    + unfold cache_get. change (N.to_nat (2 / 2)) with 1. rewrite Hc. done.
    + split; [done|]. intros env v Hv. rewrite eval_var by lia. done.
  - intros l ->%elem_of_list_singleton. done.
Qed.

Lemma zero_good ca d f : cdata ca !! 0 = Some (tt_const 0 false) -> (truth = true -> f = 0%N) ->
  good 0 ca (Cut [] (sign_of []) f d).
Proof.
  intros Hc Hf. split; cbn [lvs fid].
  - split; cbn; [apply sorted_nil|done].
  - cbn. lia.
  - intros _ p i Hp Hi. exfalso. inversion Hp as [|n' m p' i' (a & b & _ & H & _) Hp2 E3 E4 E5]; subst; [|done].
    apply elem_of_list_lookup in Hi as [k Hi]. destruct (wf_in s Hwf _ _ Hi) as [? _]. done.
  - intros Ht. rewrite (Hf Ht). exists (tt_const 0 false). split; [|split; [apply const_wf|]].
    + unfold cache_get. change (N.to_nat (0 / 2)) with 0. rewrite Hc. done.
    + split; [done|]. intros env v Hv. rewrite eval_const. symmetry. apply Hv.
  - by intros l ?%elem_of_nil.
Qed.

Lemma node_prefix n ca ca' cs : (exists r, cdata ca' = cdata ca ++ r) -> node_done n ca cs -> node_done n ca' cs.
Proof.
  intros Hp [[H1 H2] H3]. split; [|done]. split; [done|]. intros c Hc. destruct (H2 c Hc). split; [|done].
  by eapply good_prefix.
Qed.

(* finishing node n *)
Lemma inv_step n x cs ca : inv n x -> n < size s -> node_done n ca cs -> cinv ca ->
  (exists r, cdata ca = cdata x.2 ++ r) -> length (cdata ca) <= length (cdata x.2) + max * max ->
  inv (S n) (<[n := cs]> x.1, ca).
Proof.
  intros [I1 I2 I3 I4 I5 I6 I7] Hn Hd Hc Hp Hl. split; cbn [fst snd].
  - by rewrite insert_length.
  - intros m cs' Hm Hcs. destruct (decide (m = n)) as [->|Hne].
    + rewrite list_lookup_insert in Hcs by lia. by injection Hcs as <-.
    + rewrite list_lookup_insert_ne in Hcs by done. eapply node_prefix; [exact Hp|]. apply I2; [lia|done].
  - intros m cs' Hm Hcs. rewrite list_lookup_insert_ne in Hcs by lia. eapply I3; [|done]. lia.
  - done.
  - destruct Hp as [r ->]. by apply lookup_app_l_Some.
  - destruct Hp as [r ->]. by apply lookup_app_l_Some.
  - lia.
Qed.

Lemma merge_cuts2_inv n a b x : ks s !! n = Some (a, b) -> n <> 0 -> a <> b -> inv n x ->
  (cut_limit ps < N.of_nat max)%N ->
  wpt (~ Safe) (merge_cuts2 truth lt upd d0 cap s ps n) x (fun _ => inv (S n)).
Proof.
  intros Hk H0 Hab Hi Hlm. pose proof (lookup_lt_Some _ _ _ Hk) as Hn. fold (size s) in Hn.
  destruct (wf_gate s Hwf _ _ _ Hk Hab) as (Ha0 & Hab' & Hbn).
  unfold wpt, merge_cuts2. rewrite Hk. cbn [mbind option_bind fst snd].
  destruct (lookup_lt_is_Some_2 x.1 (sidx a)) as [l0 Hl0]; [rewrite (i_len n x Hi); lia|].
  destruct (lookup_lt_is_Some_2 x.1 (sidx b)) as [l1 Hl1]; [rewrite (i_len n x Hi); lia|].
  destruct (lookup_lt_is_Some_2 x.1 n) as [rc Hrc]; [rewrite (i_len n x Hi); lia|].
  rewrite Hl0, Hl1, Hrc. cbn [mbind option_bind].
  destruct (i_done n x Hi (sidx a) l0 ltac:(lia) Hl0) as ([Ok0 G0] & _ & T0 & F0).
  destruct (i_done n x Hi (sidx b) l1 ltac:(lia) Hl1) as ([Ok1 G1] & _ & T1 & F1).
  pose proof (i_todo n x Hi n rc ltac:(lia) Hrc) as ->.
  set (x0 := (<[n := cs_clear (cs_new max d0)]> x.1, x.2)).
  assert (Hlx0 : n < length x0.1) by (cbn; rewrite insert_length, (i_len n x Hi); lia).
  set (n0 := length (vis l0)). set (n1 := length (vis l1)).
  assert (Hn0 : n0 <= max) by (unfold n0; rewrite vis_len by done; apply Ok0).
  assert (Hn1 : n1 <= max) by (unfold n1; rewrite vis_len by done; apply Ok1).
  assert (Hprod : n0 * n1 <= max * max) by (apply Nat.mul_le_mono; done).
  assert (Hlim : (N.of_nat (length (cdata x0.2) + n0 * n1) <= 2 ^ 31)%N).
  { cbn [x0 snd]. pose proof (i_clen n x Hi). assert (max * max * n + max * max <= max * max * size s); [|lia].
    replace (max * max * n + max * max) with (max * max * S n) by lia. apply Nat.mul_le_mono_l. lia. }
  set (Ep := fun j : nat => exists u0 u1 c1 c2, vis l0 !! u0 = Some c1 /\ vis l1 !! u1 = Some c2 /\ cap >= 2 * cut_size ps /\
    length (set_union (lvs c1) (lvs c2)) <= cut_size ps /\ u0 * n1 + u1 < j).
  assert (Hloop : wpt (~ Safe) (foldM (fun nc c1 => foldM (fun nc c2 => merge_pair truth lt upd cap s ps n c1 c2 nc) nc (vis l1))
     (Cut [] 0 0 d0) (vis l0)) x0 (loop_inv n x0 (Ep (n0 * n1)) (n0 * n1))).
  { apply (foldM_wpt_at _ _ (fun j nc x => loop_inv n x0 (Ep (j * n1)) (j * n1) nc x) (vis l0) 0).
    - intros j nc y c1 Hj Ec1 HI. rewrite Nat.sub_0_r in Ec1. pose proof (elem_of_list_lookup_2 _ _ _ Ec1) as Hc1.
      destruct (G0 _ Hc1) as [Gc1 Nc1]. specialize (Nc1 ltac:(lia)).
      replace (S j * n1) with (j * n1 + length (vis l1)) by (fold n1; lia).
      apply (foldM_wpt_at _ _ (fun j nc x => loop_inv n x0 (Ep j) j nc x) (vis l1) (j * n1)); [|done].
      intros j2 nc2 y2 c2 Hj2 Ec2 HI2. pose proof (elem_of_list_lookup_2 _ _ _ Ec2) as Hc2.
      eapply wpt_mono; [eapply (merge_pair_inv n a b x0 Hk H0 Hab Hlx0 (n0 * n1) Hlim c1 c2); [done|by apply G1|done| | |exact HI2]|].
      + intros Hm. apply (union_two _ _ (sidx a) (sidx b)); [apply Gc1|by apply (G1 c2)|lia|by apply T0; [lia|..]|by apply T1; [lia|..]].
      + fold n0 in Hj. fold n1 in Hj2. assert (S j * n1 <= n0 * n1) by (apply Nat.mul_le_mono_r; lia). lia.
      + intros nc' y'. apply loop_weak. intros (u0 & u1 & d1 & d2 & E0 & E1 & Hcp & Hun & Hlt).
        destruct (decide (u0 * n1 + u1 < j2)) as [?|Hge]; [left; exists u0, u1, d1, d2; auto|right].
        fold n1 in Hj2. pose proof (lookup_lt_Some _ _ _ E1) as L1. fold n1 in L1.
        assert (u0 = j) as -> by nia. assert (u1 = j2 - j * n1) as -> by lia. rewrite Ec1 in E0. rewrite Ec2 in E1.
        injection E0 as <-. injection E1 as <-. auto.
    - split; cbn [x0 fst snd].
      + exists (cs_clear (cs_new max d0)). rewrite list_insert_insert. split; [done|]. split; [|split].
        * split; [split; cbn; [apply repeat_length|lia]|]. intros c ?%not_elem_of_nil. done.
        * intros _ c ?%not_elem_of_nil. done.
        * intros (u0 & u1 & d1 & d2 & _ & _ & _ & _ & Hlt). cbn in Hlt. lia.
      + apply Hi.
      + exists []. by rewrite app_nil_r.
      + lia. }
  unfold wpt in Hloop. fold x0.
  match goal with |- context [mbind _ ?t] => destruct t as [[nc x1]|] eqn:Ef end; [|exact Hloop].
  cbn [mbind option_bind].
  destruct Hloop as [(rc & Ex1 & [Hok Hgood] & Htwo & He) Hc1 Hp1 Hlen1].
  assert (Hne : Full -> 2 * cut_size ps <= cap -> vis rc <> []).
  { intros Hfull Hcp. apply He. destruct (F0 ltac:(lia) Hfull Hcp) as [(c1 & Hc1' & L1) _]. destruct (F1 ltac:(lia) Hfull Hcp) as [(c2 & Hc2' & L2) _].
    apply elem_of_list_lookup in Hc1' as [u0 E0]. apply elem_of_list_lookup in Hc2' as [u1 E1]. exists u0, u1, c1, c2.
    split; [done|]. split; [done|]. split; [lia|]. split.
    - rewrite L1, L2. pose proof (set_union_length [sidx a] [sidx b]). cbn in *. destruct Hfull. lia.
    - apply lookup_lt_Some in E0, E1. fold n0 in E0. fold n1 in E1. nia. }
  rewrite Ex1, list_lookup_insert by done. cbn [mbind option_bind x0 fst].
  set (k := ((cut_limit ps + 2 ^ 32 - 1) mod 2 ^ 32)%N).
  assert (Hkl : (1 <= cut_limit ps < 2 ^ 32)%N -> (k + 1 = cut_limit ps)%N).
  { intros Hcl. unfold k. replace (cut_limit ps + 2 ^ 32 - 1)%N with ((cut_limit ps - 1) + 1 * 2 ^ 32)%N by lia.
    rewrite N.mod_add by done. rewrite N.mod_small by lia. lia. }
  assert (Hlimit : wpt (~ Safe) (fun _ : unit => r ← limit k rc; Some (r, Datatypes.tt)) Datatypes.tt
    (fun r _ => cs_ok max r /\ (forall c, c ∈ vis r -> c ∈ vis rc) /\ (N.of_nat (cn r) <= k)%N /\ (Full -> vis rc <> [] -> vis r <> []))).
  { unfold wpt, limit. case_decide as Hlt; cbn [mbind option_bind].
    - case_decide as Hz; cbn [mbind option_bind].
      + intros (_ & _ & _ & Hcl). specialize (Hkl ltac:(lia)). lia.
      + destruct Hok as [Hok1 Hok2]. split; [split; cbn; lia|]. split; [|split; [cbn; lia|]].
        * intros c Hc. unfold vis in *. cbn [arr cn] in Hc.
          replace (N.to_nat k - 1) with (Nat.min (N.to_nat k - 1) (cn rc)) in Hc by lia.
          rewrite <- take_take in Hc. rewrite <- (take_drop (N.to_nat k - 1) (take (cn rc) (arr rc))).
          apply elem_of_app. by left.
        * intros (_ & _ & Hf) _ Hv%(f_equal length). specialize (Hkl ltac:(lia)). unfold vis in Hv. cbn [arr cn] in Hv.
          rewrite take_length in Hv. cbn in Hv. lia.
    - split; [done|]. split; [done|]. split; [lia|done]. }
  unfold wpt in Hlimit. destruct (limit k rc) as [r2|] eqn:El; [|exact Hlimit]. cbn [mbind option_bind] in *.
  destruct Hlimit as (Hok2 & Hsub & Hcn & Hne2).
  destruct (lookup_lt_is_Some_2 (arr r2) 0) as [fst0 Hf0]; [destruct Hok2; lia|]. rewrite Hf0. cbn [mbind option_bind].
  rewrite !list_insert_insert.
  assert (Hc2 : (exists r, cdata x1.2 = cdata x.2 ++ r)) by exact Hp1.
  assert (Hgood2 : forall c, c ∈ vis r2 -> good n x1.2 c /\ (n <> 0 -> lvs c <> [])) by auto.
  case_decide as Hunit.
  - destruct (decide (cn r2 < max)) as [Hr2|Hr2].
    + destruct (decide (1 <= cap)) as [Hcap|Hcap].
      * destruct (add_leaf_spec n [n] 2 (<[n := r2]> x.1, x1.2) r2) as (d & cs' & E & Hok' & f' & Hf' & Hv');
          [cbn; rewrite list_lookup_insert; [done|]; cbn in Hlx0; rewrite insert_length in Hlx0; done|done|done|done|].
        unfold add_unit_cut. rewrite E. cbn [fst snd]. rewrite list_insert_insert.
        apply (inv_step n x); [done|done| |done|done|cbn [x0 snd] in Hlen1; lia].
        split; [split; [done|]|split; [|split]].
        -- intros c Hc. rewrite Hv' in Hc. apply elem_of_app in Hc as [Hc|Hc%elem_of_list_singleton]; [auto|].
           subst c. split; [|done]. apply unit_good; [done| |done].
           destruct Hc2 as [r ->]. apply lookup_app_l_Some, (i_c1 n x Hi).
        -- intros Hcl1 Hcl2. rewrite Hv', app_length. cbn [length]. rewrite vis_len by done.
           specialize (Hkl ltac:(lia)). lia.
        -- intros _ Hm c Hc. rewrite Hv' in Hc. apply elem_of_app in Hc as [Hc|Hc%elem_of_list_singleton]; [right; auto|]. subst c. by left.
        -- intros _ Hfull Hcp. rewrite Hv'. split; [eexists; split; [apply elem_of_app; right; left|done]|]. intros _.
           specialize (Hne2 Hfull (Hne Hfull Hcp)). destruct (vis r2) as [|c r] eqn:Ev; [done|]. exists c. split; [left|].
           apply Htwo; [apply Hfull|]. apply Hsub. left.
      * destruct (add_unit_cut truth cap n (<[n:=r2]> x.1, x1.2)) as [[? ?]|] eqn:E.
        -- exfalso. unfold add_unit_cut, add_leaf_cut in E. cbn [fst] in E.
           rewrite list_lookup_insert in E by (cbn in Hlx0; rewrite insert_length in Hlx0; done).
           cbn [mbind option_bind] in E. unfold add_cut in E. destruct (arr r2 !! cn r2); [|done].
           cbn [mbind option_bind] in E. unfold set_leaves in E. rewrite decide_False in E by (cbn; lia). done.
        -- intros (S1 & _). lia.
    + destruct (add_unit_cut truth cap n (<[n:=r2]> x.1, x1.2)) as [[? ?]|] eqn:E.
      * exfalso. unfold add_unit_cut, add_leaf_cut in E. cbn [fst] in E.
        rewrite list_lookup_insert in E by (cbn in Hlx0; rewrite insert_length in Hlx0; done).
        cbn [mbind option_bind] in E. unfold add_cut in E. destruct Hok2 as [Hok21 Hok22].
        rewrite lookup_ge_None_2 in E by lia. done.
      * intros (_ & _ & _ & Hcl). specialize (Hkl ltac:(lia)). lia.
  - apply (inv_step n x); [done|done| |done|done|cbn [x0 snd] in Hlen1; lia].
    split; [split; [done|exact Hgood2]|]. split; [|split].
    + intros Hcl1 Hcl2. rewrite vis_len by done. specialize (Hkl ltac:(lia)). lia.
    + intros _ Hm c Hc. right. auto.
    + intros _ Hfull Hcp. exfalso. specialize (Hne2 Hfull (Hne Hfull Hcp)). apply Hunit. right.
      apply (Htwo (proj1 (proj2 Hfull))). apply Hsub. unfold vis in *. destruct (arr r2) as [|c r]; [done|]. injection Hf0 as <-.
      destruct (cn r2); [done|]. left.
Qed.

Lemma enum_node_inv n x : (forall m h, fo s !! m = Some h -> N.testbit h 31 = false) -> n < size s -> inv n x ->
  (cut_limit ps < N.of_nat max)%N ->
  wpt (~ Safe) (enum_node truth lt upd d0 cap s ps n) x (fun _ => inv (S n)).
Proof.
  intros Hdead Hn Hi Hlm. unfold enum_node. apply wpt_bnd. unfold is_dead.
  destruct (lookup_lt_is_Some_2 (fo s) n) as [h Hh]; [rewrite (wf_lfo s Hwf); done|].
  rewrite Hh. cbn [mbind option_bind lift wpt]. rewrite (Hdead _ _ Hh).
  destruct (lookup_lt_is_Some_2 x.1 n) as [rc Hrc]; [rewrite (i_len n x Hi); lia|].
  pose proof (i_todo n x Hi n rc ltac:(lia) Hrc) as ->.
  assert (Hok : cs_ok max (cs_new max d0)) by (split; cbn; [apply repeat_length|lia]).
  case_decide as H0.
  - subst n. unfold wpt, add_zero_cut.
    destruct (add_leaf_spec 0 [] 0 x _ Hrc Hok) as (d & cs' & E & Hok' & f' & Hf' & Hv'); [cbn; lia|cbn; lia|].
    rewrite E. apply (inv_step 0 x); [done|done| |apply Hi|exists []; by rewrite app_nil_r|lia].
    split; [split; [done|]|split; [|done]].
    + intros c Hc. rewrite Hv' in Hc. change (vis (cs_new max d0)) with (@nil (cut D)) in Hc.
      apply elem_of_list_singleton in Hc as ->. split; [|done]. apply zero_good; [apply Hi|done].
    + intros Hcl _. rewrite Hv'. exact Hcl.
  - destruct (lookup_lt_is_Some_2 (ks s) n Hn) as [[a b] Hk].
    apply wpt_bnd. unfold is_pi. rewrite Hk. cbn [mbind option_bind lift wpt fst snd].
    destruct (decide (a = b)) as [<-|Hab].
    + rewrite bool_decide_eq_true_2 by done. pose proof (wf_ci s Hwf _ _ Hk H0) as Hin.
      apply lookup_lt_Some in Hin. rewrite bool_decide_eq_true_2 by lia. cbn [andb].
      unfold wpt. destruct (decide (1 <= cap)) as [Hcap|Hcap].
      * destruct (add_leaf_spec n [n] 2 x _ Hrc Hok) as (d & cs' & E & Hok' & f' & Hf' & Hv'); [cbn; lia|cbn; lia|].
        unfold add_unit_cut. rewrite E. apply (inv_step n x); [done|done| |apply Hi|exists []; by rewrite app_nil_r|lia].
        split; [split; [done|]|split; [|split]].
        -- intros c Hc. rewrite Hv' in Hc. change (vis (cs_new max d0)) with (@nil (cut D)) in Hc.
           apply elem_of_list_singleton in Hc as ->. split; [|done]. apply unit_good; [done|apply Hi|done].
        -- intros Hcl _. rewrite Hv'. exact Hcl.
        -- intros _ _ c Hc. rewrite Hv' in Hc. change (vis (cs_new max d0)) with (@nil (cut D)) in Hc.
           apply elem_of_list_singleton in Hc as ->. by left.
        -- intros _ _ _. rewrite Hv'. split; [eexists; split; [apply elem_of_app; right; left|done]|].
           intros (a' & b' & Hk' & _ & Hab'). rewrite Hk in Hk'. injection Hk' as <- <-. done.
      * destruct (add_unit_cut truth cap n x) as [[? ?]|] eqn:E.
        -- exfalso. unfold add_unit_cut, add_leaf_cut in E. rewrite Hrc in E.
           cbn [mbind option_bind] in E. unfold add_cut in E. destruct (arr (cs_new max d0) !! cn _); [|done].
           cbn [mbind option_bind] in E. unfold set_leaves in E. rewrite decide_False in E by (cbn; lia). done.
        -- intros (S1 & _). lia.
    + rewrite bool_decide_eq_false_2 by done. cbn [andb]. by eapply merge_cuts2_inv.
Qed.

Lemma cut_enumeration_spec : (forall m h, fo s !! m = Some h -> N.testbit h 31 = false) ->
  match cut_enumeration truth lt upd d0 cap max s ps with
  | Some x => inv (size s) x
  | None => ~ (Safe /\ (cut_limit ps < N.of_nat max)%N)
  end.
Proof.
  intros Hdead. unfold cut_enumeration. case_decide as Hlm; [|tauto].
  pose proof (mapM_wpt (~ Safe) (enum_node truth lt upd d0 cap s ps) (fun n x => inv n x) (size s) 0) as H.
  unfold wpt at 2 in H. specialize (H ltac:(intros; apply enum_node_inv; [done|lia|done|done])).
  specialize (H _ init_inv). destruct (mapM _ _ _) as [[? x]|]; cbn [mbind option_bind]; [done|tauto].
Qed.
End enum.

(* small networks have no fanout counter that reaches the dead flag *)
Lemma references_bound s n : references s n <= 2 * size s + length (outs s).
Proof.
  unfold references, size. apply Nat.add_le_mono.
  - induction (ks s) as [|k l IH]; cbn; [lia|]. unfold gate_refs, count_sig in *. repeat case_decide; lia.
  - induction (outs s) as [|k l IH]; cbn; [lia|]. unfold count_sig in *. case_decide; lia.
Qed.
Lemma no_dead s : wf s -> (N.of_nat (2 * size s + length (outs s)) < 2 ^ 31)%N ->
  forall m h, fo s !! m = Some h -> N.testbit h 31 = false.
Proof.
  intros Hw Hb m h Hh. rewrite (wf_fo s Hw _ _ Hh). pose proof (references_bound s m) as Hr.
  unfold u32. rewrite N.mod_small by (change (2 ^ 32)%N with (2 * 2 ^ 31)%N; lia).
  destruct (decide (references s m = 0)) as [->|Hne]; [done|]. apply N.bits_above_log2.
  apply N.log2_lt_pow2; lia.
Qed.
