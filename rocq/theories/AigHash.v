(* Proofs about the chained hash table of storage.hpp. *)
From Verif Require Import Base Aig AigSem.

Fixpoint linked (nl : list nat) (h : nat) (l : list nat) : Prop :=
  match l with
  | [] => h = 0
  | i :: r => h = i /\ i <> 0 /\ exists n, nl !! i = Some n /\ linked nl n r
  end.

Definition bkt (kl : list key) (nl hl : list nat) (B : list (list nat)) : Prop :=
  length B = length hl /\
  forall k h l, hl !! k = Some h -> B !! k = Some l ->
    linked nl h l /\ NoDup l /\
    forall i, i ∈ l -> exists x, kl !! i = Some x /\ abc_hash x (length hl) = k.

(* [tbl kl nl hl E]: the table holds exactly the nodes in E. *)
Definition tbl (kl : list key) (nl hl : list nat) (E : nat -> Prop) : Prop :=
  0 < length hl /\ length nl = length kl /\
  exists B, bkt kl nl hl B /\ forall i, E i <-> i ∈ concat B.

Lemma elem_concat {A} (B : list (list A)) x :
  x ∈ concat B <-> exists k l, B !! k = Some l /\ x ∈ l.
Proof.
  induction B as [|l B IH]; cbn.
  - split; [by intros ?%elem_of_nil | intros (k & l & Hk & _); by destruct k].
  - rewrite elem_of_app, IH. split.
    + intros [H | (k & l' & Hk & H)]; [by exists 0, l | by exists (S k), l'].
    + intros ([|k] & l' & Hk & H); cbn in Hk; [left; by simplify_eq | right; eauto].
Qed.

Lemma abc_hash_lt x sz : 0 < sz -> abc_hash x sz < sz.
Proof.
  intros. unfold abc_hash. destruct x as [a b].
  set (y := u64 _). assert ((y mod N.of_nat sz) < N.of_nat sz)%N by (apply N.mod_lt; lia). lia.
Qed.

Lemma linked_insert nl h l i x : i ∉ l -> linked nl h l -> linked (<[i:=x]> nl) h l.
Proof.
  revert h. induction l as [|j l IH]; cbn; [done|]. intros h Hi (-> & Hj & n & Hn & Hl).
  rewrite not_elem_of_cons in Hi. destruct Hi as [Hi Hil].
  split; [done|]. split; [done|]. exists n. rewrite list_lookup_insert_ne by done. auto.
Qed.

Lemma linked_app nl t h l : linked nl h l -> linked (nl ++ t) h l.
Proof.
  revert h. induction l as [|j l IH]; cbn; [done|]. intros h (-> & Hj & n & Hn & Hl).
  split; [done|]. split; [done|]. exists n. split; [by apply lookup_app_l_Some | auto].
Qed.

Lemma linked_nonzero nl h l i : linked nl h l -> i ∈ l -> i <> 0.
Proof.
  revert h. induction l as [|j l IH]; cbn; [by intros ? ? ?%elem_of_nil|].
  intros h (-> & Hj & n & Hn & Hl) [->|Hi]%elem_of_cons; eauto.
Qed.

Lemma linked_lt nl h l i : linked nl h l -> i ∈ l -> i < length nl.
Proof.
  revert h. induction l as [|j l IH]; cbn; [by intros ? ? ?%elem_of_nil|].
  intros h (-> & Hj & n & Hn & Hl) [->|Hi]%elem_of_cons; eauto using lookup_lt_Some.
Qed.

(* A duplicate-free chain of node indices is no longer than the node vector. *)
Lemma nodup_bound (l : list nat) m : NoDup l -> (forall i, i ∈ l -> i < m) -> length l <= m.
Proof.
  intros Hnd Hlt. rewrite <- (seq_length m 0). apply submseteq_length.
  apply NoDup_submseteq; [done|]. intros x Hx. apply elem_of_seq. specialize (Hlt x Hx). lia.
Qed.

Lemma find_chain_spec fuel kl nl k h l :
  linked nl h l -> (forall i, i ∈ l -> is_Some (kl !! i)) -> length l < fuel ->
  exists r, find_chain fuel kl nl k h = Some r /\
    ((r <> 0 /\ r ∈ l /\ kl !! r = Some k) \/ (r = 0 /\ forall i, i ∈ l -> kl !! i <> Some k)).
Proof.
  revert h fuel. induction l as [|j l IH]; intros h fuel Hl Hk Hf.
  - cbn in Hl. subst. destruct fuel; [lia|]. cbn. exists 0. split; [done|].
    right. split; [done|]. intros i Hi. by apply elem_of_nil in Hi.
  - cbn in Hl. destruct Hl as (-> & Hj & n & Hn & Hl). destruct fuel as [|fuel]; [cbn in Hf; lia|].
    cbn [find_chain]. rewrite decide_False by done.
    destruct (Hk j ltac:(constructor)) as [kj Hkj]. rewrite Hkj. cbn.
    destruct (decide (kj = k)) as [->|Hne].
    + exists j. split; [done|]. left. repeat split; [done|constructor|done].
    + rewrite Hn. cbn. destruct (IH n fuel Hl) as (r & Hr & Hcase).
      { intros i Hi. apply Hk. by constructor. }
      { cbn in Hf. lia. }
      exists r. split; [done|]. destruct Hcase as [(?&?&?)|(?&Hno)].
      * left. repeat split; [done|by constructor|done].
      * right. split; [done|]. intros i [->|Hi]%elem_of_cons; [congruence|auto].
Qed.

Lemma bkt_lookup kl nl hl B k h :
  bkt kl nl hl B -> hl !! k = Some h -> exists l, B !! k = Some l.
Proof.
  intros [Hlen _] Hk. apply lookup_lt_is_Some. rewrite Hlen. by apply lookup_lt_Some in Hk.
Qed.

Lemma bkt_elem kl nl hl B i x :
  bkt kl nl hl B -> i ∈ concat B -> kl !! i = Some x ->
  exists h l, hl !! (abc_hash x (length hl)) = Some h /\ B !! (abc_hash x (length hl)) = Some l /\
    linked nl h l /\ NoDup l /\ i ∈ l.
Proof.
  intros [Hlen HB] (k & l & Hk & Hi)%elem_concat Hx.
  assert (Hlt : k < length hl) by (rewrite <- Hlen; by apply lookup_lt_Some in Hk).
  destruct (lookup_lt_is_Some_2 hl k Hlt) as [h Hh].
  destruct (HB _ _ _ Hh Hk) as (Hl & Hnd & Hall).
  destruct (Hall _ Hi) as (x' & Hx' & <-). simplify_eq. eauto 10.
Qed.

Lemma tbl_find kl nl hl E k (s : aig) :
  tbl kl nl hl E -> ks s = kl -> nx s = nl -> hs s = hl ->
  exists r, hash_find k s = Some r /\
    ((r <> 0 /\ E r /\ kl !! r = Some k) \/ (r = 0 /\ forall i, E i -> kl !! i <> Some k)).
Proof.
  intros (Hpos & Hlen & B & HB & HE) <- <- <-. unfold hash_find.
  pose proof (abc_hash_lt k (length (hs s)) Hpos) as Hlt.
  destruct (lookup_lt_is_Some_2 _ _ Hlt) as [h Hh]. rewrite Hh. cbn [mbind option_bind].
  destruct (bkt_lookup _ _ _ _ _ _ HB Hh) as [l Hl].
  destruct HB as [HlenB HB]. destruct (HB _ _ _ Hh Hl) as (Hlk & Hnd & Hall).
  destruct (find_chain_spec (S (length (ks s))) (ks s) (nx s) k h l Hlk) as (r & Hr & Hcase).
  { intros i Hi. destruct (Hall _ Hi) as (x & Hx & _). eauto. }
  { assert (length l <= length (ks s)); [|lia]. apply nodup_bound; [done|].
    intros i Hi. rewrite <- Hlen. eapply linked_lt; eauto. }
  exists r. split; [done|]. destruct Hcase as [(Hr0 & Hin & Hkr)|(Hr0 & Hno)].
  - left. repeat split; [done| |done]. apply HE, elem_concat. eauto.
  - right. split; [done|]. intros i Hi Hki. apply HE in Hi.
    destruct (bkt_elem _ _ _ _ _ _ (conj HlenB HB) Hi Hki) as (h' & l' & Hh' & Hl' & _ & _ & Hin).
    simplify_eq. by apply (Hno i).
Qed.

Lemma elem_concat_insert (B : list (list nat)) b l i j :
  B !! b = Some l -> j ∈ concat (<[b := i :: l]> B) <-> j = i \/ j ∈ concat B.
Proof.
  intros Hb. pose proof (lookup_lt_Some _ _ _ Hb) as Hlt.
  rewrite !elem_concat. split.
  - intros (k & l' & Hk & Hj). destruct (decide (k = b)) as [->|Hne].
    + rewrite list_lookup_insert in Hk by done. simplify_eq.
      apply elem_of_cons in Hj as [->|Hj]; [by left|right; eauto].
    + rewrite list_lookup_insert_ne in Hk by done. right; eauto.
  - intros [->|(k & l' & Hk & Hj)].
    + exists b, (i :: l). rewrite list_lookup_insert by done. split; [done|constructor].
    + destruct (decide (k = b)) as [->|Hne].
      * assert (l' = l) as -> by congruence. exists b, (i :: l). rewrite list_lookup_insert by done. split; [done|by constructor].
      * exists k, l'. rewrite list_lookup_insert_ne by done. done.
Qed.

Lemma bkt_push kl nl hl B i x h l :
  bkt kl nl hl B -> kl !! i = Some x -> i <> 0 -> i < length nl -> i ∉ concat B ->
  hl !! abc_hash x (length hl) = Some h -> B !! abc_hash x (length hl) = Some l ->
  bkt kl (<[i := h]> nl) (<[abc_hash x (length hl) := i]> hl)
      (<[abc_hash x (length hl) := i :: l]> B).
Proof.
  intros [Hlen HB] Hx Hi0 Hin Hni Hh Hl.
  split; [by rewrite !insert_length|]. intros k h' l' Hh' Hl'.
  rewrite insert_length. destruct (decide (k = abc_hash x (length hl))) as [->|Hne].
  - rewrite list_lookup_insert in Hh' by (by apply lookup_lt_Some in Hh).
    rewrite list_lookup_insert in Hl' by (by apply lookup_lt_Some in Hl).
    injection Hh' as Hh'. injection Hl' as Hl'. subst h' l'.
    destruct (HB _ _ _ Hh Hl) as (Hlk & Hnd & Hall).
    assert (i ∉ l). { intros Hil. apply Hni, elem_concat. eauto. }
    split.
    + cbn. split; [done|]. split; [done|]. exists h. rewrite list_lookup_insert by done.
      split; [done|]. by apply linked_insert.
    + split; [by constructor|]. intros j [->|Hj]%elem_of_cons; eauto.
  - rewrite list_lookup_insert_ne in Hh' by done. rewrite list_lookup_insert_ne in Hl' by done.
    destruct (HB _ _ _ Hh' Hl') as (Hlk & Hnd & Hall).
    split; [|done]. apply linked_insert; [|done].
    intros Hil. apply Hni, elem_concat. eauto.
Qed.

Lemma rehash_chain_spec fuel kl nl nh B cur l :
  linked nl cur l -> NoDup l -> (forall i, i ∈ l -> is_Some (kl !! i)) ->
  bkt kl nl nh B -> 0 < length nh -> (forall i, i ∈ l -> i ∉ concat B) -> length l < fuel ->
  exists nl' nh' B', rehash_chain fuel kl (length nh) (nl, nh) cur = Some (nl', nh') /\
    bkt kl nl' nh' B' /\ length nh' = length nh /\ length nl' = length nl /\
    (forall i, i ∈ concat B' <-> i ∈ concat B \/ i ∈ l) /\
    (forall j, j ∉ l -> nl' !! j = nl !! j).
Proof.
  revert nl nh B cur fuel. induction l as [|i l IH]; intros nl nh B cur fuel Hl Hnd Hk HB Hpos Hdis Hf.
  - cbn in Hl. subst. destruct fuel; [cbn in Hf; lia|]. cbn. exists nl, nh, B.
    split; [done|]. split; [done|]. split; [done|]. split; [done|]. split; [|done].
    intros i. rewrite elem_of_nil. tauto.
  - cbn in Hl. destruct Hl as (-> & Hi & n & Hn & Hl). destruct fuel as [|fuel]; [cbn in Hf; lia|].
    cbn [rehash_chain]. rewrite decide_False by done. rewrite Hn. cbn [mbind option_bind].
    destruct (Hk i ltac:(constructor)) as [x Hx]. rewrite Hx. cbn [mbind option_bind].
    pose proof (abc_hash_lt x (length nh) Hpos) as Hlt.
    destruct (lookup_lt_is_Some_2 _ _ Hlt) as [h Hh]. rewrite Hh. cbn [mbind option_bind].
    destruct (bkt_lookup _ _ _ _ _ _ HB Hh) as [lb Hlb].
    apply NoDup_cons in Hnd as [Hil Hnd].
    assert (Hin : i < length nl) by (by apply lookup_lt_Some in Hn).
    assert (HB' := bkt_push _ _ _ _ _ _ _ _ HB Hx Hi Hin (Hdis i ltac:(constructor)) Hh Hlb).
    destruct (IH (<[i:=h]> nl) (<[abc_hash x (length nh) := i]> nh)
      (<[abc_hash x (length nh):=i :: lb]> B) n fuel) as
      (nl' & nh' & B' & Hr & HB'' & Hlen & Hlen' & HE & Hfr).
    + by apply linked_insert.
    + done.
    + intros j Hj. apply Hk. by constructor.
    + done.
    + by rewrite insert_length.
    + intros j Hj. rewrite elem_concat_insert by done. intros [->|Hc]; [done|].
      eapply Hdis; [|done]. by constructor.
    + cbn in Hf. lia.
    + rewrite insert_length in Hr. exists nl', nh', B'. split; [done|]. split; [done|].
      rewrite insert_length in Hlen. rewrite insert_length in Hlen'.
      split; [done|]. split; [done|]. split.
      * intros j. rewrite HE, elem_concat_insert by done. rewrite elem_of_cons. tauto.
      * intros j Hj. rewrite not_elem_of_cons in Hj. destruct Hj as [Hji Hjl].
        rewrite Hfr by done. by rewrite list_lookup_insert_ne by done.
Qed.

Lemma linked_ext nl nl' h l :
  (forall i, i ∈ l -> nl' !! i = nl !! i) -> linked nl h l -> linked nl' h l.
Proof.
  revert h. induction l as [|i l IH]; cbn; [done|]. intros h Hext (-> & Hi & n & Hn & Hl).
  split; [done|]. split; [done|]. exists n. split.
  - rewrite Hext; [done|constructor].
  - apply IH; [|done]. intros j Hj. apply Hext. by constructor.
Qed.

Lemma rehash_all_spec fuel kl nl nh B hl Bs :
  Forall2 (fun h l => linked nl h l /\ NoDup l) hl Bs ->
  NoDup (concat Bs) -> (forall i, i ∈ concat Bs -> is_Some (kl !! i)) ->
  bkt kl nl nh B -> 0 < length nh -> (forall i, i ∈ concat Bs -> i ∉ concat B) ->
  (forall l, l ∈ Bs -> length l < fuel) ->
  exists nl' nh' B', rehash_all fuel kl (length nh) (nl, nh) hl = Some (nl', nh') /\
    bkt kl nl' nh' B' /\ length nh' = length nh /\ length nl' = length nl /\
    (forall i, i ∈ concat B' <-> i ∈ concat B \/ i ∈ concat Bs).
Proof.
  revert nl nh B Bs. induction hl as [|h hl IH]; intros nl nh B Bs HF Hnd Hk HB Hpos Hdis Hf.
  - apply Forall2_nil_inv_l in HF. subst. cbn. exists nl, nh, B.
    split; [done|]. split; [done|]. split; [done|]. split; [done|].
    intros i. cbn. rewrite elem_of_nil. tauto.
  - apply Forall2_cons_inv_l in HF as (l & Bs' & [Hl Hndl] & HF & ->).
    cbn [concat] in *. apply NoDup_app in Hnd as (_ & Hd & Hnd).
    cbn [rehash_all].
    destruct (rehash_chain_spec fuel kl nl nh B h l) as
      (nl1 & nh1 & B1 & Hr & HB1 & Hlen & Hlen' & HE & Hfr); try done.
    + intros i Hi. apply Hk. rewrite elem_of_app. by left.
    + intros i Hi. apply Hdis. rewrite elem_of_app. by left.
    + apply Hf. constructor.
    + rewrite Hr. cbn [mbind option_bind]. rewrite <- Hlen.
      destruct (IH nl1 nh1 B1 Bs') as (nl' & nh' & B' & Hr' & HB' & Hlen2 & Hlen2' & HE').
      * eapply Forall2_impl with (P := fun h l => (linked nl h l /\ NoDup l) /\ l ∈ Bs').
        { clear -HF. induction HF; constructor; [split; [done|constructor]|].
          eapply Forall2_impl; [done|]. intros ? ? [? ?]; split; [done|by constructor]. }
        intros h' l' [[Hl' Hnd'] Hin]. split; [|done]. eapply linked_ext; [|done].
        intros i Hi. apply Hfr. intros Hil. eapply Hd; [done|]. apply elem_concat.
        apply elem_of_list_lookup in Hin as [k Hin]. eauto.
      * done.
      * intros i Hi. apply Hk. rewrite elem_of_app. by right.
      * done.
      * lia.
      * intros i Hi. rewrite HE. intros [Hc|Hc].
        { eapply Hdis; [|done]. rewrite elem_of_app. by right. }
        { by eapply Hd. }
      * intros l' Hl'. apply Hf. by constructor.
      * exists nl', nh', B'. split; [done|]. split; [done|]. split; [lia|]. split; [lia|].
        intros i. rewrite HE', HE, elem_of_app. tauto.
Qed.

Lemma bkt_Forall2 kl nl hl B :
  bkt kl nl hl B -> Forall2 (fun h l => linked nl h l /\ NoDup l) hl B.
Proof.
  intros [Hlen HB]. apply Forall2_same_length_lookup. split; [done|].
  intros i h l Hh Hl. destruct (HB _ _ _ Hh Hl) as (?&?&_). done.
Qed.

Lemma NoDup_concat_bkt kl nl hl B : bkt kl nl hl B -> NoDup (concat B).
Proof.
  intros [Hlen HB].
  assert (H1 : forall k l, B !! k = Some l -> NoDup l).
  { intros k l Hl. assert (k < length hl) by (rewrite <- Hlen; by apply lookup_lt_Some in Hl).
    destruct (lookup_lt_is_Some_2 hl k) as [h Hh]; [done|].
    destruct (HB _ _ _ Hh Hl) as (?&?&_). done. }
  assert (H2 : forall k1 k2 l1 l2 i, B !! k1 = Some l1 -> B !! k2 = Some l2 -> i ∈ l1 -> i ∈ l2 -> k1 = k2).
  { intros k1 k2 l1 l2 i E1 E2 I1 I2.
    destruct (lookup_lt_is_Some_2 hl k1) as [h1 Hh1]; [rewrite <- Hlen; by apply lookup_lt_Some in E1|].
    destruct (lookup_lt_is_Some_2 hl k2) as [h2 Hh2]; [rewrite <- Hlen; by apply lookup_lt_Some in E2|].
    destruct (HB _ _ _ Hh1 E1) as (_&_&Ha1). destruct (HB _ _ _ Hh2 E2) as (_&_&Ha2).
    destruct (Ha1 _ I1) as (x1 & X1 & <-). destruct (Ha2 _ I2) as (x2 & X2 & <-). congruence. }
  clear Hlen HB. induction B as [|l B IH]; cbn; [constructor|].
  apply NoDup_app. split; [by apply (H1 0)|]. split.
  - intros i Hi Hc. apply elem_concat in Hc as (k & l' & Hk & Hi').
    pose proof (H2 0 (S k) l l' i eq_refl Hk Hi Hi'). lia.
  - apply IH.
    + intros k l' Hk. by apply (H1 (S k)).
    + intros k1 k2 l1 l2 i E1 E2 I1 I2. by pose proof (H2 (S k1) (S k2) _ _ _ E1 E2 I1 I2) as ?%Nat.succ_inj.
Qed.

Lemma concat_repeat_nil {A} n : concat (repeat (@nil A) n) = [].
Proof. induction n; cbn; auto. Qed.

Lemma bkt_empty kl nl n : bkt kl nl (repeat 0 n) (repeat [] n).
Proof.
  split; [by rewrite !repeat_length|]. intros k h l Hh Hl.
  assert (h = 0) as ->. { apply elem_of_list_lookup_2 in Hh. apply elem_of_list_In, repeat_spec in Hh. done. }
  assert (l = []) as ->. { apply elem_of_list_lookup_2 in Hl. apply elem_of_list_In, repeat_spec in Hl. done. }
  cbn. split; [done|]. split; [constructor|]. by intros i ?%elem_of_nil.
Qed.

Lemma tbl_empty kl nl n : 0 < n -> length nl = length kl -> tbl kl nl (repeat 0 n) (fun _ => False).
Proof.
  intros. split; [by rewrite repeat_length|]. split; [done|].
  exists (repeat [] n). split; [apply bkt_empty|]. intros i. rewrite concat_repeat_nil.
  split; [done|by intros ?%elem_of_nil].
Qed.

Lemma tbl_dom kl nl hl E i : tbl kl nl hl E -> E i -> exists x, kl !! i = Some x.
Proof.
  intros (_ & _ & B & [Hlen HB] & HE) Hi. apply HE, elem_concat in Hi as (k & l & Hk & Hi).
  destruct (lookup_lt_is_Some_2 hl k) as [h Hh]; [rewrite <- Hlen; by apply lookup_lt_Some in Hk|].
  destruct (HB _ _ _ Hh Hk) as (_ & _ & Ha). destruct (Ha _ Hi) as (x & Hx & _). eauto.
Qed.

Lemma tbl_nonzero kl nl hl E i : tbl kl nl hl E -> E i -> i <> 0.
Proof.
  intros (_ & _ & B & [Hlen HB] & HE) Hi. apply HE, elem_concat in Hi as (k & l & Hk & Hi).
  destruct (lookup_lt_is_Some_2 hl k) as [h Hh]; [rewrite <- Hlen; by apply lookup_lt_Some in Hk|].
  destruct (HB _ _ _ Hh Hk) as (Hl & _ & _). eapply linked_nonzero; eauto.
Qed.

(* hash_reserve keeps the entries. *)
Lemma hash_reserve_spec s E sz :
  tbl (ks s) (nx s) (hs s) E -> 0 < sz ->
  exists nl hl, hash_reserve sz s =
      Some (Aig (ks s) nl (fo s) (ph s) (ins s) (outs s) (npi s) (npo s) (lat s) hl (ne s)) /\
    tbl (ks s) nl hl E /\ length hl = sz.
Proof.
  intros (Hpos & Hlen & B & HB & HE) Hsz. unfold hash_reserve. rewrite decide_False by lia.
  assert (Hks : forall i, i ∈ concat B -> is_Some (ks s !! i)).
  { intros i Hi. edestruct (tbl_dom (ks s) (nx s) (hs s) E i); [|by apply HE|eauto].
    split; [done|]. split; [done|]. eauto. }
  destruct (rehash_all_spec (S (length (ks s))) (ks s) (nx s) (repeat 0 sz) (repeat [] sz) (hs s) B)
    as (nl & nh & B' & Hr & HB' & Hl1 & Hl2 & HE').
  - by eapply bkt_Forall2.
  - by eapply NoDup_concat_bkt.
  - done.
  - apply bkt_empty.
  - by rewrite repeat_length.
  - intros i _. rewrite concat_repeat_nil. apply not_elem_of_nil.
  - intros l Hl. apply elem_of_list_lookup in Hl as [k Hk].
    assert (length l <= length (ks s)); [|lia].
    destruct HB as [HlB HB].
    destruct (lookup_lt_is_Some_2 (hs s) k) as [h Hh]; [rewrite <- HlB; by apply lookup_lt_Some in Hk|].
    destruct (HB _ _ _ Hh Hk) as (Hlk & Hnd & Ha). apply nodup_bound; [done|].
    intros i Hi. destruct (Ha _ Hi) as (x & Hx & _). by apply lookup_lt_Some in Hx.
  - rewrite repeat_length in Hr, Hl1. rewrite Hr. cbn. exists nl, nh. split; [done|].
    split; [|done]. split; [lia|]. split; [congruence|]. exists B'. split; [done|].
    intros i. rewrite HE', concat_repeat_nil, HE. rewrite elem_of_nil. tauto.
Qed.

Lemma grow_pos n : 0 < n -> 0 < grow n.
Proof.
  intros. unfold grow.
  assert (3 <= 31415 * N.of_nat n / 10000)%N; [|lia].
  apply N.div_le_lower_bound; lia.
Qed.

Lemma link_head_spec s E x i :
  tbl (ks s) (nx s) (hs s) E -> ks s !! i = Some x -> i <> 0 -> ¬ E i ->
  exists nl hl, link_head x i s =
      Some (Aig (ks s) nl (fo s) (ph s) (ins s) (outs s) (npi s) (npo s) (lat s) hl (u64 (ne s + 1))) /\
    tbl (ks s) nl hl (fun j => j = i \/ E j) /\ length hl = length (hs s).
Proof.
  intros (Hpos & Hlen & B & HB & HE) Hx Hi HnE. unfold link_head.
  pose proof (abc_hash_lt x _ Hpos) as Hlt.
  destruct (lookup_lt_is_Some_2 _ _ Hlt) as [h Hh]. rewrite Hh. cbn [mbind option_bind].
  assert (Hin : i < length (nx s)) by (rewrite Hlen; by apply lookup_lt_Some in Hx).
  destruct (lookup_lt_is_Some_2 _ _ Hin) as [n Hn]. rewrite Hn. cbn [mbind option_bind].
  destruct (bkt_lookup _ _ _ _ _ _ HB Hh) as [l Hl].
  eexists _, _. split; [done|]. split; [|by rewrite insert_length].
  split; [by rewrite insert_length|]. split; [by rewrite insert_length|].
  eexists. split; [eapply bkt_push; try done; by rewrite <- HE|].
  intros j. rewrite elem_concat_insert by done. by rewrite HE.
Qed.

Lemma hash_insert_spec s E x i :
  tbl (ks s) (nx s) (hs s) E -> ks s !! i = Some x -> i <> 0 -> ¬ E i ->
  exists nl hl, hash_insert x i s =
      Some (Aig (ks s) nl (fo s) (ph s) (ins s) (outs s) (npi s) (npo s) (lat s) hl (u64 (ne s + 1))) /\
    tbl (ks s) nl hl (fun j => j = i \/ E j).
Proof.
  intros HT Hx Hi HnE. unfold hash_insert. case_decide.
  - destruct (hash_reserve_spec s E (grow (length (hs s))) HT) as (nl & hl & Hr & HT' & _).
    { apply grow_pos, HT. }
    rewrite Hr. cbn [mbind option_bind].
    destruct (link_head_spec (Aig (ks s) nl (fo s) (ph s) (ins s) (outs s) (npi s) (npo s) (lat s) hl (ne s)) E x i)
      as (nl' & hl' & Hr' & HT'' & _); try done. cbn in Hr', HT''. eauto.
  - cbn [mbind option_bind].
    destruct (link_head_spec s E x i) as (nl' & hl' & Hr' & HT'' & _); try done. eauto.
Qed.

(* --- erase --- *)
Lemma erase_walk_head fuel kl nl k p n nn :
  fuel <> 0 -> kl !! n = Some k -> nl !! n = Some nn ->
  erase_walk fuel kl nl k p n = Some (p, n).
Proof.
  intros Hf Hk Hn. destruct fuel; [done|]. cbn. rewrite Hk. cbn. rewrite Hn. cbn.
  by rewrite decide_True.
Qed.

Lemma erase_walk_spec fuel kl nl k pre h l i :
  linked nl h l -> NoDup l -> (forall j, j ∈ l -> is_Some (kl !! j)) -> length l < fuel ->
  i ∈ l -> kl !! i = Some k -> (forall j, j ∈ l -> kl !! j = Some k -> j = i) ->
  exists l1 l2 nn, l = l1 ++ i :: l2 /\ nl !! i = Some nn /\ linked nl nn l2 /\
    erase_walk fuel kl nl k pre h = Some (match last l1 with Some p => p | None => pre end, i).
Proof.
  revert pre h fuel. induction l as [|j l IH]; intros pre h fuel Hl Hnd Hk Hf Hi Hki Hu;
    [by apply elem_of_nil in Hi|].
  cbn in Hl. destruct Hl as (-> & Hj & n & Hn & Hl). destruct fuel as [|fuel]; [cbn in Hf; lia|].
  apply NoDup_cons in Hnd as [Hjl Hnd].
  destruct (decide (j = i)) as [->|Hne].
  - exists [], l, n. split; [done|]. split; [done|]. split; [done|]. cbn.
    rewrite Hki. cbn. rewrite Hn. cbn. by rewrite decide_True.
  - apply elem_of_cons in Hi as [->|Hi]; [done|].
    destruct (Hk j ltac:(constructor)) as [kj Hkj].
    assert (kj <> k). { intros ->. apply Hne, Hu; [constructor|done]. }
    assert (Hn0 : n <> 0). { destruct l; [by apply elem_of_nil in Hi|]. cbn in Hl. destruct Hl as (->&?&_). done. }
    destruct (IH j n fuel) as (l1 & l2 & nn & -> & Hnn & Hl2 & Hr); try done.
    + intros j' Hj'. apply Hk. by constructor.
    + cbn in Hf. lia.
    + intros j' Hj'. apply Hu. by constructor.
    + exists (j :: l1), l2, nn. split; [done|]. split; [done|]. split; [done|].
      cbn [erase_walk]. rewrite Hkj. cbn [mbind option_bind]. rewrite Hn. cbn [mbind option_bind].
      rewrite decide_False by done. rewrite decide_False by done. rewrite Hr.
      rewrite last_cons. destruct (last l1); done.
Qed.

Lemma linked_unlink nl h l1 i l2 nn p :
  linked nl h (l1 ++ i :: l2) -> NoDup (l1 ++ i :: l2) -> nl !! i = Some nn -> last l1 = Some p ->
  linked (<[p := nn]> nl) h (l1 ++ l2).
Proof.
  revert h. induction l1 as [|a l1 IH]; intros h Hl Hnd Hi Hp; [done|].
  cbn in Hl. destruct Hl as (-> & Ha & n & Hn & Hl).
  cbn in Hnd. apply NoDup_cons in Hnd as [Hal Hnd].
  cbn. split; [done|]. split; [done|].
  destruct l1 as [|b l1].
  - cbn in Hp. simplify_eq. exists nn. rewrite list_lookup_insert by (by apply lookup_lt_Some in Hn).
    split; [done|]. cbn in *. destruct Hl as (-> & Hi0 & n' & Hn' & Hl). simplify_eq.
    apply linked_insert; [|done]. intros ?. apply Hal. by constructor.
  - rewrite last_cons_cons in Hp. exists n. split.
    + rewrite list_lookup_insert_ne; [done|]. intros ->. apply Hal.
      apply elem_of_app. left. apply last_Some in Hp as [l' Hp]. rewrite Hp. apply elem_of_app. right. constructor.
    + by apply IH.
Qed.

Lemma elem_concat_replace (B : list (list nat)) b l l' i j :
  B !! b = Some l -> (forall x, x ∈ l' <-> x ∈ l /\ x <> i) ->
  (forall k m, B !! k = Some m -> i ∈ m -> k = b) ->
  j ∈ concat (<[b := l']> B) <-> j ∈ concat B /\ j <> i.
Proof.
  intros Hb Hl' Hu. pose proof (lookup_lt_Some _ _ _ Hb) as Hlt.
  rewrite !elem_concat. split.
  - intros (k & m & Hk & Hj). destruct (decide (k = b)) as [->|Hne].
    + rewrite list_lookup_insert in Hk by done. simplify_eq. apply Hl' in Hj as [? ?]. eauto.
    + rewrite list_lookup_insert_ne in Hk by done. split; [eauto|]. intros ->.
      apply Hne. by eapply Hu.
  - intros [(k & m & Hk & Hj) Hji]. destruct (decide (k = b)) as [->|Hne].
    + simplify_eq. exists b, l'. rewrite list_lookup_insert by done. split; [done|]. by apply Hl'.
    + exists k, m. by rewrite list_lookup_insert_ne by done.
Qed.

Lemma hash_erase_spec s E x i :
  tbl (ks s) (nx s) (hs s) E -> E i -> ks s !! i = Some x ->
  (forall j, E j -> ks s !! j = Some x -> j = i) ->
  exists nl hl, hash_erase x s =
      Some (Aig (ks s) nl (fo s) (ph s) (ins s) (outs s) (npi s) (npo s) (lat s) hl
                (u64 (ne s + 2 ^ 64 - 1))) /\
    tbl (ks s) nl hl (fun j => E j /\ j <> i).
Proof.
  intros HT Hi Hx Hu. pose proof HT as (Hpos & Hlen & B & HB & HE).
  destruct (bkt_elem _ _ _ _ _ _ HB (proj1 (HE i) Hi) Hx) as (h & l & Hh & Hl & Hlk & Hnd & Hil).
  pose proof HB as [HlB HB'].
  destruct (HB' _ _ _ Hh Hl) as (_ & _ & Ha).
  destruct (erase_walk_spec (S (length (ks s))) (ks s) (nx s) x h h l i) as
    (l1 & l2 & nn & -> & Hnn & Hl2 & Hr); try done.
  { intros j Hj. destruct (Ha _ Hj) as (y & Hy & _). eauto. }
  { assert (length l <= length (ks s)); [|lia]. apply nodup_bound; [done|].
    intros j Hj. destruct (Ha _ Hj) as (y & Hy & _). by apply lookup_lt_Some in Hy. }
  { intros j Hj. apply Hu, HE, elem_concat. eauto. }
  unfold hash_erase. rewrite Hh. cbn [mbind option_bind]. rewrite Hr. cbn [mbind option_bind].
  rewrite Hx. cbn [mbind option_bind]. rewrite Hnn. cbn [mbind option_bind].
  rewrite decide_True by done.
  set (b := abc_hash x (length (hs s))) in *.
  assert (Huniq : forall k m, B !! k = Some m -> i ∈ m -> k = b).
  { intros k m Hk Him.
    destruct (lookup_lt_is_Some_2 (hs s) k) as [h' Hh']; [rewrite <- HlB; by apply lookup_lt_Some in Hk|].
    destruct (HB' _ _ _ Hh' Hk) as (_ & _ & Ha'). destruct (Ha' _ Him) as (y & Hy & <-).
    by simplify_eq. }
  assert (Hrem : forall y, y ∈ l1 ++ l2 <-> y ∈ l1 ++ i :: l2 /\ y <> i).
  { intros y. rewrite !elem_of_app, elem_of_cons. split; [|naive_solver].
    intros Hy. split; [naive_solver|]. intros ->.
    apply NoDup_app in Hnd as (_ & Hd & Hnd). apply NoDup_cons in Hnd as [Hn2 _].
    destruct Hy as [Hy|Hy]; [|done]. eapply Hd; [done|constructor]. }
  assert (Hnd' : NoDup (l1 ++ l2)).
  { apply NoDup_app in Hnd as (? & Hd & Hnd). apply NoDup_cons in Hnd as [Hn2 ?].
    apply NoDup_app. split; [done|]. split; [|done]. intros y Hy Hy2. eapply Hd; [done|by constructor]. }
  assert (Hmk : forall nl hl h', length hl = length (hs s) -> hl !! b = Some h' ->
      (forall k, k <> b -> hl !! k = hs s !! k) -> length nl = length (nx s) ->
      linked nl h' (l1 ++ l2) ->
      (forall k h'' m, k <> b -> hs s !! k = Some h'' -> B !! k = Some m -> linked nl h'' m) ->
      tbl (ks s) nl hl (fun j => E j /\ j <> i)).
  { intros nl hl h' Hl' Hb' Hother Hnl Hlk' Hlk''. split; [lia|]. split; [congruence|].
    exists (<[b := l1 ++ l2]> B). split.
    - split; [by rewrite insert_length, Hl'|]. intros k h'' m Hk Hm.
      destruct (decide (k = b)) as [->|Hne].
      + rewrite list_lookup_insert in Hm by (by apply lookup_lt_Some in Hl). simplify_eq.
        split; [done|]. split; [done|]. intros j Hj. rewrite Hl'. apply Ha. by apply Hrem.
      + rewrite list_lookup_insert_ne in Hm by done. rewrite Hother in Hk by done.
        destruct (HB' _ _ _ Hk Hm) as (_ & ? & Ha'). split; [by eapply Hlk''|].
        split; [done|]. rewrite Hl'. done.
    - intros j. rewrite (elem_concat_replace B b _ _ i j Hl Hrem Huniq). by rewrite HE. }
  case_decide as Hhd.
  - destruct l1 as [|a l1].
    + eexists _, _. split; [done|]. apply (Hmk _ _ nn); try done.
      * by rewrite insert_length.
      * by rewrite list_lookup_insert by (by apply lookup_lt_Some in Hh).
      * intros k Hk. by rewrite list_lookup_insert_ne by done.
      * intros k h'' m Hk Hk' Hm. destruct (HB' _ _ _ Hk' Hm) as (?&_&_). done.
    + cbn in Hlk. destruct Hlk as (-> & _). subst a. exfalso.
      cbn in Hnd. apply NoDup_cons in Hnd as [Hn _]. apply Hn, elem_of_app. right. constructor.
  - destruct l1 as [|a l1].
    { cbn in Hlk. destruct Hlk as (-> & _). done. }
    destruct (last (a :: l1)) as [p|] eqn:Hp; [|by apply last_None in Hp].
    eexists _, _. split; [done|]. apply (Hmk _ _ h); try done.
    * by rewrite insert_length.
    * by eapply linked_unlink.
    * intros k h'' m Hk Hk' Hm. destruct (HB' _ _ _ Hk' Hm) as (Hlm&_&Ham).
      apply linked_insert; [|done]. intros Hpm. destruct (Ham _ Hpm) as (y & Hy & Hyk).
      assert (Hpl : p ∈ (a :: l1) ++ i :: l2).
      { apply elem_of_app. left. apply last_Some in Hp as [l' Hp]. rewrite Hp. apply elem_of_app. right. constructor. }
      destruct (Ha _ Hpl) as (y' & Hy' & Hyk'). congruence.
Qed.
