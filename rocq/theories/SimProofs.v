From stdpp Require Import sorting.
From Verif Require Import Base Aig AigSem AigHash AigProofs Clean NetProofs CleanProofs Tt TtProofs TtCache Klut KlutSem
  KlutProofs Cnf CnfProofs Subst Sim.

(* ---- folds ---- *)
Lemma opt_fold_inv {A B} (f : A -> B -> option A) (P : list B -> A -> Prop) l a0 :
  (forall pre x rest a, l = pre ++ x :: rest -> P pre a -> exists a', f a x = Some a' /\ P (pre ++ [x]) a') ->
  P [] a0 -> exists a, opt_fold f a0 l = Some a /\ P l a.
Proof.
  intros Hstep H0.
  assert (G : forall rest pre a, l = pre ++ rest -> P pre a -> exists a', opt_fold f a rest = Some a' /\ P l a').
  { induction rest as [|x rest IH]; intros pre a E Hp.
    - rewrite app_nil_r in E. subst pre. exists a. done.
    - cbn [opt_fold]. destruct (Hstep pre x rest a E Hp) as (a' & -> & Hp'). cbn [mbind option_bind].
      apply (IH (pre ++ [x])); [|done]. by rewrite <- app_assoc. }
  by apply (G l [] a0).
Qed.
Lemma opt_fold_pres {A B} (f : A -> B -> option A) (P : A -> Prop) l a0 a :
  (forall x a a', x ∈ l -> P a -> f a x = Some a' -> P a') -> P a0 -> opt_fold f a0 l = Some a -> P a.
Proof.
  revert a0. induction l as [|x l IH]; intros a0 Hs H0; cbn; [by intros [= <-]|].
  intros (a1 & E & H)%bind_Some. eapply IH; [|eapply Hs; [constructor|exact H0|exact E]|exact H].
  intros y b b' Hy. apply Hs. by constructor.
Qed.

Lemma set_inputs_spec {V} (pi : nat -> option V) ns vals :
  NoDup ns -> (forall i, i < length ns -> is_Some (pi i)) -> (forall n : nat, n ∈ ns -> n < length vals) ->
  exists vals', set_inputs pi ns vals = Some vals' /\ length vals' = length vals /\
    (forall i n, ns !! i = Some n -> vals' !! n = pi i) /\ (forall n, n ∉ ns -> vals' !! n = vals !! n).
Proof.
  intros Hnd Hpi Hb. unfold set_inputs.
  destruct (opt_fold_inv (fun vals (p : nat * nat) => v ← pi p.1; Some (<[p.2 := v]> vals))
    (fun pre vals' => length vals' = length vals /\ (forall i n, (i, n) ∈ pre -> vals' !! n = pi i) /\
       forall n, (forall i, (i, n) ∉ pre) -> vals' !! n = vals !! n)
    (imap (fun i n => (i, n)) ns) vals) as (vals' & E & Hl & H1 & H2).
  - intros pre [i n] rest a E (Hl & H1 & H2). cbn [fst snd].
    assert (Hin : imap (fun i n => (i, n)) ns !! length pre = Some (i, n)) by (rewrite E; apply list_lookup_middle; done).
    rewrite list_lookup_imap in Hin. destruct (ns !! length pre) as [n'|] eqn:Hn; [|done]. injection Hin as <- <-.
    pose proof (lookup_lt_Some _ _ _ Hn) as Hlt. destruct (Hpi (length pre) Hlt) as [v Hv]. rewrite Hv. cbn [mbind option_bind].
    eexists. split; [reflexivity|]. rewrite insert_length. split; [done|].
    assert (Hfresh : forall i, (i, n') ∉ pre).
    { intros i [j Hj]%elem_of_list_lookup. assert (Hjl : j < length pre) by (by eapply lookup_lt_Some).
      assert (Hj' : imap (fun i n => (i, n)) ns !! j = Some (i, n')) by (rewrite E, lookup_app_l by done; done).
      rewrite list_lookup_imap in Hj'. destruct (ns !! j) as [nj|] eqn:Hnj; [|done]. injection Hj' as <- <-.
      assert (j = length pre) by (by eapply NoDup_lookup). lia. }
    split.
    + intros j m [Hj|Hj%elem_of_list_singleton]%elem_of_app; [|injection Hj as -> ->].
      * rewrite list_lookup_insert_ne; [by apply H1|]. intros ->. by apply (Hfresh j).
      * rewrite Hv. apply list_lookup_insert. rewrite Hl. apply Hb. by eapply elem_of_list_lookup_2.
    + intros m Hm. rewrite list_lookup_insert_ne.
      * apply H2. intros j Hj. apply (Hm j). apply elem_of_app. by left.
      * intros ->. apply (Hm (length pre)). apply elem_of_app. right. by constructor.
  - split; [done|]. split; [by intros i n ?%elem_of_nil|done].
  - exists vals'. split; [done|]. split; [done|]. split.
    + intros i n Hi. apply H1. apply elem_of_list_lookup. exists i. rewrite list_lookup_imap, Hi. done.
    + intros n Hn. apply H2. intros i [j Hj]%elem_of_list_lookup. rewrite list_lookup_imap in Hj.
      destruct (ns !! j) as [nj|] eqn:Hnj; [|done]. injection Hj as <- <-. apply Hn. by eapply elem_of_list_lookup_2.
Qed.

(* ---- order of the gates ---- *)
Lemma sorted_before (pre : list nat) n rest m : StronglySorted lt (pre ++ n :: rest) -> m ∈ pre ++ n :: rest -> m < n -> m ∈ pre.
Proof.
  induction pre as [|x pre IH]; cbn.
  - intros Hs [->|Hm]%elem_of_cons Hlt; [lia|]. inversion Hs as [|? ? _ HF]; subst.
    rewrite Forall_forall in HF. specialize (HF m Hm). lia.
  - intros Hs [->|Hm]%elem_of_cons Hlt; [constructor|]. constructor. apply IH; [|done|done]. by inversion Hs.
Qed.
Lemma sorted_filter (P : nat -> Prop) `{forall x, Decision (P x)} a k : StronglySorted lt (filter P (seq a k)).
Proof.
  revert a. induction k as [|k IH]; intros a; cbn; [constructor|].
  destruct (decide (P a)); [|apply IH]. constructor; [apply IH|]. apply Forall_forall. intros x [_ Hx]%elem_of_list_filter.
  apply elem_of_seq in Hx. lia.
Qed.
Lemma gates_live s : network s -> exists gs, gates s = Some gs /\ StronglySorted lt gs /\ forall n, n ∈ gs <-> live_gate s n.
Proof.
  intros W. unfold gates. rewrite sieve_spec.
  - eexists. split; [reflexivity|]. split; [apply sorted_filter|].
    intros n. rewrite elem_of_list_filter, elem_of_seq. unfold is_ci, live_gate, is_gate. split.
    + intros [H [H1 H2]]. destruct (lookup_lt_is_Some_2 (ks s) n) as [[a b] E]; [unfold size in *; lia|].
      rewrite E in H. cbn in H. destruct (is_dead s n) as [[]|]; cbn in H; [destruct (bool_decide (a = b)); done| |done].
      destruct (bool_decide_reflect (a = b)) as [->|Hab]; cbn in H; [done|]. split; [|done].
      exists a, b. split; [done|]. split; [|done]. intros ->. by apply Nat.nle_succ_0 in H1.
    + intros [(a & b & E & Hn & Hab) Hd]. rewrite E. cbn.
      rewrite Hd. rewrite bool_decide_false by done. cbn. split; [done|]. apply lookup_lt_Some in E. unfold size. lia.
  - intros n [H1 H2]%elem_of_seq. unfold is_ci, is_dead.
    destruct (lookup_lt_is_Some_2 (ks s) n) as [[a b] E]; [unfold size in *; lia|]. rewrite E. cbn.
    destruct (lookup_lt_is_Some_2 (fo s) n) as [h Hh]; [rewrite (net_fo _ W); lia|]. rewrite Hh. cbn. eauto.
Qed.

Lemma net_node s n k : network s -> ks s !! n = Some k -> n = 0 \/ n ∈ ins s \/ is_gate s n.
Proof.
  intros W Hk. destruct k as [a b]. destruct (decide (n = 0)); [by left|]. right. destruct (decide (a = b)) as [->|Hab].
  - left. by destruct (net_ci _ W n b Hk).
  - right. by exists a, b.
Qed.

(* ---- the generic simulation ---- *)
(* [obs u x] is the bit of value u for assignment x *)
Lemma sim_nodes_spec {V X} (c : bool -> V) (pi : nat -> option V) (gate : key -> V -> V -> option V) (d : V)
    (good : V -> Prop) (obs : V -> X -> bool) (env : X -> nat -> bool) s :
  network s -> in_order s ->
  good (c false) -> (forall x, obs (c false) x = false) ->
  (forall i, i < npi s -> exists u, pi i = Some u /\ good u /\ forall x, obs u x = env x i) ->
  (forall k u1 u2, good u1 -> good u2 -> exists u, gate k u1 u2 = Some u /\ good u /\
     forall x, obs u x = xorb (obs u1 x) (scompl k.1) && xorb (obs u2 x) (scompl k.2)) ->
  (npi s = length (ins s) \/ good d /\ (forall x, obs d x = false) /\ forall x i, npi s <= i -> env x i = false) ->
  exists vals, sim_nodes c pi gate d s = Some vals /\ length vals = size s /\
    forall n, n < size s -> (is_gate s n -> is_dead s n = Some false) ->
      exists u, vals !! n = Some u /\ good u /\ forall x v, valuation s (env x) v -> obs u x = v n.
Proof.
  intros W Ho Hc Hc' Hpi Hgate Hd. unfold sim_nodes.
  assert (H0s : 0 < size s) by (eapply lookup_lt_Some, (net_const _ W)).
  assert (Hins : forall n, n ∈ ins s -> n < size s /\ n <> 0 /\ ~ is_gate s n).
  { intros n [k Hk]%elem_of_list_lookup. destruct (net_in _ W k n Hk) as [H0 E]. split; [by eapply lookup_lt_Some|].
    split; [done|]. intros (a & b & E' & _ & Hab). rewrite E in E'. by injection E' as <- <-. }
  pose proof (net_ins_nodup s W) as [_ Hnd]%NoDup_cons.
  destruct (set_inputs_spec pi (pis s) (<[0 := c false]> (repeat d (size s)))) as (vals1 & -> & Hl1 & H1 & H2).
  { unfold pis. rewrite <- (take_drop (npi s)) in Hnd. by apply NoDup_app in Hnd as [? _]. }
  { intros i Hi. unfold pis in Hi. rewrite take_length in Hi. destruct (Hpi i) as (u & -> & _); [lia|]. done. }
  { intros n Hn. rewrite insert_length, repeat_length. apply Hins. unfold pis in Hn.
    eapply elem_of_list_lookup in Hn as [k Hk]. apply lookup_take_Some in Hk as [Hk _]. by eapply elem_of_list_lookup_2. }
  rewrite insert_length, repeat_length in Hl1. cbn [mbind option_bind].
  destruct (gates_live s W) as (gs & -> & Hsort & Hgs). cbn [mbind option_bind].
  set (R := fun (vals : list V) n => exists u, vals !! n = Some u /\ good u /\ forall x v, valuation s (env x) v -> obs u x = v n).
  match goal with |- context [opt_fold ?f _ gs] =>
    destruct (opt_fold_inv f (fun pre vals => length vals = size s /\
      (forall n, n < size s -> (is_gate s n -> n ∈ pre) -> R vals n)) gs vals1) as (vals & -> & Hl & HR) end.
  - intros pre n rest vals E [Hl HR]. cbn beta.
    assert (Hg : live_gate s n) by (apply Hgs; rewrite E; apply elem_of_app; right; constructor).
    destruct Hg as [(a & b & Ek & Hn0 & Hab) Hdead]. rewrite Ek. cbn [mbind option_bind fst snd].
    assert (Hfan : forall m, fanin s n m -> R vals m).
    { intros m Hm. destruct (Ho n m Hm Hdead) as [Hlt Hdm]. apply HR; [by apply (net_gate _ W n)|].
      intros Hgm. apply (sorted_before pre n rest m); [by rewrite <- E| |done]. rewrite <- E. apply Hgs. done. }
    destruct (Hfan (sidx a)) as (u1 & -> & G1 & O1); [exists a, b; tauto|].
    destruct (Hfan (sidx b)) as (u2 & -> & G2 & O2); [exists a, b; tauto|]. cbn [mbind option_bind].
    destruct (Hgate (a, b) u1 u2 G1 G2) as (u & -> & G & O). cbn [mbind option_bind].
    eexists. split; [reflexivity|]. rewrite insert_length. split; [done|].
    intros m Hm Hpre. destruct (decide (m = n)) as [->|Hmn].
    + exists u. split; [apply list_lookup_insert; lia|]. split; [done|]. intros x v Vx.
      rewrite O, (O1 x v Vx), (O2 x v Vx). cbn [fst snd]. symmetry. by apply (val_gate _ _ _ Vx n a b).
    + unfold R. rewrite list_lookup_insert_ne by done. apply HR; [done|]. intros Hgm.
      specialize (Hpre Hgm). apply elem_of_app in Hpre as [?|?%elem_of_list_singleton]; done.
  - split; [done|]. intros n Hn Hng.
    destruct (lookup_lt_is_Some_2 (ks s) n Hn) as [k Hk].
    destruct (net_node s n k W Hk) as [->|[Hi|Hg]]; [| |by specialize (Hng Hg); apply elem_of_nil in Hng].
    + exists (c false). split.
      * rewrite H2; [apply list_lookup_insert; by rewrite repeat_length|].
        unfold pis. intros [j Hj]%elem_of_list_lookup. apply lookup_take_Some in Hj as [Hj _].
        by destruct (net_in _ W j 0 Hj).
      * split; [done|]. intros x v Vx. rewrite Hc'. symmetry. apply (val_const _ _ _ Vx).
    + apply elem_of_list_lookup in Hi as [j Hj]. destruct (decide (j < npi s)) as [Hjp|Hjp].
      * destruct (Hpi j Hjp) as (u & Eu & Gu & Ou). exists u. split.
        { rewrite (H1 j n); [done|]. unfold pis. by rewrite lookup_take. }
        split; [done|]. intros x v Vx. rewrite Ou. symmetry. by apply (val_input _ _ _ Vx).
      * destruct Hd as [Hd|(Gd & Od & Ed)].
        { apply lookup_lt_Some in Hj. lia. }
        exists d. destruct (Hins n) as (_ & Hn0 & _); [by eapply elem_of_list_lookup_2|]. split.
        { rewrite H2.
          - rewrite list_lookup_insert_ne by done. by apply lookup_repeat_lt.
          - unfold pis. intros [i Hi]%elem_of_list_lookup. apply lookup_take_Some in Hi as [Hi Hil].
            assert (i = j) by (by eapply NoDup_lookup). lia. }
        split; [done|]. intros x v Vx. rewrite Od, (val_input _ _ _ Vx j n Hj). symmetry. apply Ed. lia.
  - exists vals. split; [done|]. split; [done|]. intros n Hn Hgn. apply HR; [done|]. intros Hg. apply Hgs. split; [done|by apply Hgn].
Qed.

(* outputs are signals of nodes that are left *)
Lemma sim_outputs_spec {V X} (c : bool -> V) (pi : nat -> option V) (neg : V -> V) (gate : key -> V -> V -> option V) (d : V)
    (good : V -> Prop) (obs : V -> X -> bool) (env : X -> nat -> bool) s vals :
  network s -> (forall f, f ∈ pos s -> is_gate s (sidx f) -> is_dead s (sidx f) = Some false) ->
  (forall u, good u -> good (neg u) /\ forall x, obs (neg u) x = negb (obs u x)) ->
  sim_nodes c pi gate d s = Some vals ->
  (forall n, n < size s -> (is_gate s n -> is_dead s n = Some false) ->
      exists u, vals !! n = Some u /\ good u /\ forall x v, valuation s (env x) v -> obs u x = v n) ->
  exists os, sim_outputs c pi neg gate d s = Some os /\ Forall good os /\
    forall x v, valuation s (env x) v -> map (fun u => obs u x) os = map (sval v) (pos s).
Proof.
  intros W Hd Hneg E HV. unfold sim_outputs. rewrite E. cbn [mbind option_bind].
  assert (Hval : forall f, f ∈ pos s -> sidx f < size s).
  { intros f Hf. pose proof (net_out _ W) as HO. rewrite Forall_forall in HO. apply HO.
    unfold pos in Hf. apply elem_of_list_lookup in Hf as [i Hi]. apply lookup_take_Some in Hi as [Hi _].
    by eapply elem_of_list_lookup_2. }
  induction (pos s) as [|f l IH]; cbn [opt_map].
  - exists []. split; [done|]. split; [constructor|done].
  - destruct (HV (sidx f)) as (u & Hu & Gu & Ou); [apply Hval; constructor|apply Hd; constructor|].
    rewrite Hu. cbn [mbind option_bind].
    destruct IH as (os & -> & Gos & Oos); [intros g Hg; apply Hd; by constructor|intros g Hg; apply Hval; by constructor|].
    cbn [mbind option_bind]. eexists. split; [reflexivity|].
    destruct (Hneg u Gu) as [Gn On]. split.
    + constructor; [by destruct (scompl f)|done].
    + intros x v Vx. cbn [map]. f_equal; [|by apply Oos]. unfold sval. destruct (scompl f).
      * by rewrite On, (Ou x v Vx), xorb_true_r.
      * by rewrite (Ou x v Vx), xorb_false_r.
Qed.
(* ---- LUT networks ---- *)
Lemma kvaluation_by_id s env v : kvaluation_by id s env v <-> kvaluation s env v.
Proof. split; intros []; by split. Qed.

(* every LUT has at least one input *)
Definition kfull (s : klut) : Prop :=
  forall n x, 1 < n -> kn s !! n = Some x -> isci x = false -> kch x <> [].

Lemma kgates_sorted s gs : kgates s = Some gs -> StronglySorted lt gs.
Proof.
  unfold kgates. generalize (fun n => ci ← kis_ci s n; Some (negb ci)) as p. intros p.
  generalize (ksize s - 2) as k. generalize 2 as a. intros a k. revert gs a. induction k as [|k IH]; intros gs a; cbn.
  - intros [= <-]. constructor.
  - intros (b & Hb & (r & Hr & [= <-])%bind_Some)%bind_Some. specialize (IH r (S a) Hr). destruct b; [|done].
    constructor; [done|]. clear -Hr. apply Forall_forall. intros y Hy.
    assert (G : forall l r, sieve p l = Some r -> forall y, y ∈ r -> y ∈ l).
    { clear. induction l as [|n l IH]; cbn; intros r; [intros [= <-]; done|].
      intros (b & _ & (r' & Hr & [= <-])%bind_Some)%bind_Some y Hy. destruct b; [|constructor; by eapply IH].
      apply elem_of_cons in Hy as [->|Hy]; [constructor|constructor; by eapply IH]. }
    apply (G _ _ Hr), elem_of_seq in Hy. lia.
Qed.

Lemma ksim_nodes_spec {V X} (arr : list nat -> list nat) (c : bool -> V) (pi : nat -> option V)
    (gate : nat -> list V -> option V) (d : V)
    (good : V -> Prop) (obs : V -> X -> bool) (env : X -> nat -> bool) s :
  kwf s -> (forall b, good (c b) /\ forall x, obs (c b) x = b) ->
  (forall i, i < knpi s -> exists u, pi i = Some u /\ good u /\ forall x, obs u x = env x i) ->
  (forall n y f vs, 1 < n -> kn s !! n = Some y -> isci y = false -> cache_get (kfn y) (kc s) = Some f -> tt_wf f ->
     nv f = length (kch y) -> length vs = length (kch y) -> Forall good vs ->
     exists u, gate n vs = Some u /\ good u /\
     forall x v, Forall2 (fun w m => obs w x = v m) vs (kch y) ->
       obs u x = tt_eval f (fun k => match arr (kch y) !! k with Some m => v m | None => false end)) ->
  (knpi s = length (kins s) \/ good d /\ (forall x, obs d x = false) /\ forall x i, knpi s <= i -> env x i = false) ->
  exists vals, ksim_nodes c pi gate d s = Some vals /\ length vals = ksize s /\
    forall n, n < ksize s ->
      exists u, vals !! n = Some u /\ good u /\ forall x v, kvaluation_by arr s (env x) v -> obs u x = v n.
Proof.
  intros W Hc Hpi Hgate Hd. unfold ksim_nodes.
  pose proof (kw_size s W) as Hsz. pose proof (kw_nd s W) as Hnd.
  assert (Hins : forall n, n ∈ kins s -> 1 < n /\ exists y, kn s !! n = Some y /\ isci y = true).
  { intros n [k Hk]%elem_of_list_lookup. by apply (kw_in s W k). }
  destruct (set_inputs_spec pi (kpis s) (<[1 := c true]> (<[0 := c false]> (repeat d (ksize s))))) as (vals1 & -> & Hl1 & H1 & H2).
  { unfold kpis. rewrite <- (take_drop (knpi s)) in Hnd. by apply NoDup_app in Hnd as [? _]. }
  { intros i Hi. unfold kpis in Hi. rewrite take_length in Hi. destruct (Hpi i) as (u & -> & _); [lia|]. done. }
  { intros n Hn. rewrite !insert_length, repeat_length. unfold kpis in Hn.
    apply elem_of_list_lookup in Hn as [k Hk]. apply lookup_take_Some in Hk as [Hk _].
    destruct (Hins n) as (_ & y & Hy & _); [by eapply elem_of_list_lookup_2|]. by eapply lookup_lt_Some. }
  rewrite !insert_length, repeat_length in Hl1. cbn [mbind option_bind].
  destruct (kgates_spec s W) as (gs & Egs & _ & Hgs). pose proof (kgates_sorted s gs Egs) as Hsort.
  rewrite Egs. cbn [mbind option_bind].
  set (R := fun (vals : list V) n => exists u, vals !! n = Some u /\ good u /\
    forall x v, kvaluation_by arr s (env x) v -> obs u x = v n).
  match goal with |- context [opt_fold ?f _ gs] =>
    destruct (opt_fold_inv f (fun pre vals => length vals = ksize s /\
      (forall n, n < ksize s -> (1 < n -> forall y, kn s !! n = Some y -> isci y = false -> n ∈ pre) -> R vals n)) gs vals1)
      as (vals & -> & Hl & HR) end.
  - intros pre n rest vals E [Hl HR]. cbn beta.
    destruct (proj1 (Hgs n)) as (Hn1 & y & Hy & Hci); [rewrite E; apply elem_of_app; right; constructor|].
    rewrite Hy. cbn [mbind option_bind].
    destruct (kw_gate s W n y Hn1 Hy Hci) as (Hch & f & Hf & Hwf & Hnv).
    assert (Hfan : forall m, m ∈ kch y -> R vals m).
    { intros m Hm. rewrite Forall_forall in Hch. specialize (Hch m Hm). apply HR.
      - apply lookup_lt_Some in Hy. unfold ksize. lia.
      - intros Hm1 z Hz Hzc. apply (sorted_before pre n rest m); [by rewrite <- E| |done]. rewrite <- E. apply Hgs. eauto. }
    destruct (opt_map_spec (fun c => vals !! c) (kch y)) as (vs & -> & HF).
    { intros m Hm. destruct (Hfan m Hm) as (u & -> & _). done. }
    cbn [mbind option_bind].
    assert (Hvs : Forall good vs).
    { apply Forall_forall. intros w [j Hj]%elem_of_list_lookup.
      destruct (Forall2_lookup_r _ _ _ _ _ HF Hj) as (m & Hm & Em).
      destruct (Hfan m) as (u & Eu & Gu & _); [by eapply elem_of_list_lookup_2|]. congruence. }
    destruct (Hgate n y f vs Hn1 Hy Hci Hf Hwf Hnv (eq_sym (Forall2_length _ _ _ HF)) Hvs) as (u & -> & G & O).
    cbn [mbind option_bind]. eexists. split; [reflexivity|]. rewrite insert_length. split; [done|].
    intros m Hm Hpre. destruct (decide (m = n)) as [->|Hmn].
    + exists u. split; [apply list_lookup_insert; lia|]. split; [done|]. intros x v Vx.
      rewrite (O x v).
      * symmetry. apply (kb_gate _ _ _ _ Vx n y f); [done|done| |done]. by rewrite (kis_ci_isci _ _ _ Hy), Hci.
      * apply Forall2_same_length_lookup_2; [symmetry; by apply Forall2_length in HF|].
        intros j w m Hw Hm'. pose proof (Forall2_lookup_lr _ _ _ _ _ _ HF Hm' Hw) as Ew. cbn beta in Ew.
        destruct (Hfan m) as (w' & Ew' & _ & Ow); [by eapply elem_of_list_lookup_2|].
        assert (w' = w) as -> by congruence. by apply Ow.
    + unfold R. rewrite list_lookup_insert_ne by done. apply HR; [done|]. intros Hm1 z Hz Hzc.
      specialize (Hpre Hm1 z Hz Hzc). apply elem_of_app in Hpre as [?|?%elem_of_list_singleton]; done.
  - split; [done|]. intros n Hn Hng.
    assert (Hlow : n < 2 -> n ∉ kpis s).
    { intros Hlt Hin. unfold kpis in Hin. apply elem_of_list_lookup in Hin as [k Hk]. apply lookup_take_Some in Hk as [Hk _].
      destruct (Hins n) as (? & _); [by eapply elem_of_list_lookup_2|]. lia. }
    destruct n as [|[|n]].
    + exists (c false). destruct (Hc false) as [Gc Oc]. split.
      * rewrite H2 by (apply Hlow; lia). rewrite list_lookup_insert_ne by done. apply list_lookup_insert. rewrite repeat_length. lia.
      * split; [done|]. intros x v Vx. rewrite Oc. symmetry. apply (kb_0 _ _ _ _ Vx).
    + exists (c true). destruct (Hc true) as [Gc Oc]. split.
      * rewrite H2 by (apply Hlow; lia). apply list_lookup_insert. rewrite insert_length, repeat_length. lia.
      * split; [done|]. intros x v Vx. rewrite Oc. symmetry. apply (kb_1 _ _ _ _ Vx).
    + destruct (lookup_lt_is_Some_2 (kn s) (S (S n)) Hn) as [y Hy].
      destruct (isci y) eqn:Ey; [|by specialize (Hng ltac:(lia) y Hy Ey); apply elem_of_nil in Hng].
      pose proof (kw_ci s W (S (S n)) y ltac:(lia) Hy Ey) as [j Hj]%elem_of_list_lookup.
      destruct (decide (j < knpi s)) as [Hjp|Hjp].
      * destruct (Hpi j Hjp) as (u & Eu & Gu & Ou). exists u. split.
        { rewrite (H1 j (S (S n))); [done|]. unfold kpis. by rewrite lookup_take. }
        split; [done|]. intros x v Vx. rewrite Ou. symmetry. by apply (kb_in _ _ _ _ Vx).
      * destruct Hd as [Hd|(Gd & Od & Ed)].
        { apply lookup_lt_Some in Hj. lia. }
        exists d. split.
        { rewrite H2.
          - rewrite !list_lookup_insert_ne by done. by apply lookup_repeat_lt.
          - unfold kpis. intros [i Hi]%elem_of_list_lookup. apply lookup_take_Some in Hi as [Hi Hil].
            assert (i = j) by (by eapply NoDup_lookup). lia. }
        split; [done|]. intros x v Vx. rewrite Od, (kb_in _ _ _ _ Vx j _ Hj). symmetry. apply Ed. lia.
  - exists vals. split; [done|]. split; [done|]. intros n Hn. apply HR; [done|]. intros Hn1 y Hy Hci. apply Hgs. eauto.
Qed.

Definition kpres (m : M klut nat) : Prop := forall s r s', kfull s -> m s = Some (r, s') -> kfull s'.
Lemma kfull_kincr f s s' : kincr f s = Some s' -> kfull s -> kfull s'.
Proof.
  unfold kincr. intros (x & Hx & [= <-])%bind_Some F n y Hn Hy Hc. cbn in Hy.
  destruct (decide (f = n)) as [->|Hne].
  - rewrite list_lookup_insert in Hy by (by eapply lookup_lt_Some). injection Hy as <-. by apply (F n x).
  - rewrite list_lookup_insert_ne in Hy by done. by apply (F n y).
Qed.
Lemma kfull_kincrs l s s' : kincrs l s = Some s' -> kfull s -> kfull s'.
Proof.
  revert s. induction l as [|f l IH]; cbn; intros s; [by intros [= <-]|].
  intros (s1 & E & H)%bind_Some F. eapply IH; [exact H|]. by eapply kfull_kincr.
Qed.
Lemma kpres_raw l lit : l <> [] -> kpres (kcreate_raw l lit).
Proof.
  intros Hl s r s' F. unfold kcreate_raw. intros (s1 & E & [= <- <-])%bind_Some. eapply kfull_kincrs; [exact E|].
  intros n y Hn Hy Hc. cbn in Hy. apply lookup_app_Some in Hy as [Hy|[_ Hy]]; [by apply (F n y)|].
  apply list_lookup_singleton_Some in Hy as [_ <-]. done.
Qed.
Lemma kpres_bind (m : M klut nat) (k : nat -> M klut nat) : kpres m -> (forall a, kpres (k a)) -> kpres (bnd m k).
Proof. intros Hm Hk s r s' F. unfold bnd. intros H. destruct (m s) as [[a s1]|] eqn:E; [|done]. eapply Hk; [|exact H]. by eapply Hm. Qed.
Lemma kpres_ret a : kpres (ret a).
Proof. intros s r s' F [= <- <-]. done. Qed.
Lemma kpres_tree op init fuel l : (forall a b, kpres (op a b)) -> kpres (tree_reduceM fuel op init l).
Proof.
  intros Hop. revert l. induction fuel as [|fuel IH]; intros l; [done|]. cbn [tree_reduceM].
  destruct l as [|x [|y [|z l]]]; [apply kpres_ret|apply kpres_ret|apply Hop|].
  apply kpres_bind; [apply IH|]. intros a. apply kpres_bind; [apply IH|]. intros b. apply Hop.
Qed.
Lemma kpres_add s x : kfull s -> isci x = true -> kfull (set_kn s (kn s ++ [x])).
Proof.
  intros F Hx n y Hn Hy Hc. cbn in Hy. apply lookup_app_Some in Hy as [Hy|[_ Hy]]; [by apply (F n y)|].
  apply list_lookup_singleton_Some in Hy as [_ <-]. congruence.
Qed.
Lemma kpres_step o : kpres (kstep o).
Proof.
  destruct o; cbn [kstep]; try (by apply kpres_raw); try (apply kpres_tree; intros; by apply kpres_raw).
  - intros s r s' F [= <- <-]. by apply (kpres_add s (KNode [] 2 0 1)).
  - intros s r s' F [= <- <-]. by apply (kpres_add s (KNode [] 2 0 3)).
  - apply kpres_bind; [|intros; apply kpres_ret]. intros s r s' F. unfold kcreate_po.
    intros (s1 & E & [= <- <-])%bind_Some. pose proof (kfull_kincr _ _ _ E F) as F1. exact F1.
  - apply kpres_bind; [|intros; apply kpres_ret]. intros s r s' F. unfold kcreate_ri.
    intros (s1 & E & [= <- <-])%bind_Some. pose proof (kfull_kincr _ _ _ E F) as F1. exact F1.
  - intros s r s' F. unfold kcreate_node. destruct l as [|a l].
    + case_decide; [|done]. intros [= <- <-]. done.
    + destruct (cache_insert f (kc s)) as [lit c]. apply kpres_raw; done.
Qed.
Lemma kreachable_full s : kreachable s -> kfull s.
Proof.
  induction 1 as [|s o r s' _ IH _ _ _ E].
  - intros n y Hn Hy _. apply lookup_lt_Some in Hy. cbn in Hy. lia.
  - by eapply kpres_step.
Qed.

(* ---- pattern tables ---- *)
Local Arguments Nat.div : simpl never.
Local Arguments Nat.modulo : simpl never.
Record pwf (t : ptt) : Prop := {
  pw_len : length (pblocks t) = nblocks (pbits t);
  pw_high : forall i, pbits t <= i -> pbit t i = false
}.
Lemma nblocks_bounds n : 0 < n -> 64 * (nblocks n - 1) < n <= 64 * nblocks n /\ 0 < nblocks n.
Proof.
  intros Hn. unfold nblocks. rewrite decide_False by lia.
  pose proof (Nat.div_mod (n - 1) 64 ltac:(lia)). pose proof (Nat.mod_upper_bound (n - 1) 64 ltac:(lia)). lia.
Qed.
Lemma div_split i : i = 64 * (i / 64) + i mod 64 /\ i mod 64 < 64.
Proof. split; [by apply Nat.div_mod|by apply Nat.mod_upper_bound]. Qed.
Lemma pbit_out t i : length (pblocks t) = nblocks (pbits t) -> pbits t mod 64 = 0 -> pbits t <= i -> pbit t i = false.
Proof.
  intros Hl Hm Hi. unfold pbit. rewrite lookup_ge_None_2; [done|]. rewrite Hl.
  destruct (decide (pbits t = 0)) as [E|E]; [unfold nblocks; rewrite decide_True by done; lia|].
  pose proof (nblocks_bounds (pbits t) ltac:(lia)). destruct (div_split i), (div_split (pbits t)). lia.
Qed.
Lemma mask_bits_len t : length (pblocks (mask_bits t)) = length (pblocks t) /\ pbits (mask_bits t) = pbits t.
Proof. unfold mask_bits. case_decide; [done|]. cbn. by rewrite alter_length. Qed.
Lemma mask_bits_spec t i : length (pblocks t) = nblocks (pbits t) ->
  pbit (mask_bits t) i = bool_decide (i < pbits t) && pbit t i.
Proof.
  intros Hl. unfold mask_bits. case_decide as Hm.
  - case_bool_decide as Hi; [done|]. cbn. apply pbit_out; [done|done|lia].
  - assert (Hp : 0 < pbits t). { destruct (pbits t); [done|lia]. }
    pose proof (nblocks_bounds _ Hp) as Hb. destruct (div_split i) as [Ei Hi64]. destruct (div_split (pbits t)) as [Ep Hp64].
    unfold pbit. cbn [pblocks pbits]. rewrite Hl. destruct (decide (i / 64 = nblocks (pbits t) - 1)) as [E|E].
    + rewrite E, list_lookup_alter. destruct (lookup_lt_is_Some_2 (pblocks t) (nblocks (pbits t) - 1)) as [w Hw]; [lia|].
      rewrite Hw. cbn. rewrite N.land_spec, andb_comm. f_equal.
      case_bool_decide as Hi.
      * apply N.ones_spec_low. lia.
      * apply N.ones_spec_high. lia.
    + rewrite list_lookup_alter_ne by done. case_bool_decide as Hi; [done|]. cbn.
      rewrite lookup_ge_None_2; [done|]. lia.
Qed.
Lemma mask_bits_wf t : length (pblocks t) = nblocks (pbits t) -> pwf (mask_bits t).
Proof.
  intros Hl. destruct (mask_bits_len t) as [E1 E2]. split; [congruence|].
  intros i Hi. rewrite mask_bits_spec by done. rewrite bool_decide_false; [done|]. lia.
Qed.

Lemma ptt_new_spec n : pwf (ptt_new n) /\ pbits (ptt_new n) = n /\ forall i, pbit (ptt_new n) i = false.
Proof.
  assert (G : forall i, pbit (ptt_new n) i = false).
  { intros i. unfold pbit, ptt_new. cbn. destruct (repeat 0%N (nblocks n) !! (i / 64)) as [w|] eqn:E; [|done].
    apply elem_of_list_lookup_2, elem_of_list_In, repeat_spec in E as ->. apply N.bits_0. }
  split; [|done]. split; [|done]. unfold ptt_new. cbn. apply repeat_length.
Qed.
Lemma ptt_not_spec t : pwf t -> pwf (ptt_not t) /\ pbits (ptt_not t) = pbits t /\
  forall i, i < pbits t -> pbit (ptt_not t) i = negb (pbit t i).
Proof.
  intros [Hl Hh]. unfold ptt_not. set (u := Ptt (map (fun w => N.lnot w 64) (pblocks t)) (pbits t)).
  assert (Hu : length (pblocks u) = nblocks (pbits u)) by (cbn; by rewrite map_length).
  split; [by apply mask_bits_wf|]. split; [by destruct (mask_bits_len u) as [_ ->]|].
  intros i Hi. rewrite mask_bits_spec by done. rewrite bool_decide_true by done. cbn [andb pbits]. unfold pbit. cbn [pblocks pbits u].
  rewrite list_lookup_fmap. destruct (div_split i) as [Ei Hi64]. pose proof (nblocks_bounds (pbits t) ltac:(lia)).
  destruct (lookup_lt_is_Some_2 (pblocks t) (i / 64)) as [w Hw]; [lia|]. rewrite Hw. cbn. apply N.lnot_spec_low. lia.
Qed.
Lemma ptt_and_spec t u : pwf t -> pwf u -> pbits t = pbits u ->
  exists r, ptt_and t u = Some r /\ pwf r /\ pbits r = pbits t /\ forall i, i < pbits t -> pbit r i = pbit t i && pbit u i.
Proof.
  intros [Hl Hh] [Hl' Hh'] E. unfold ptt_and. rewrite decide_True by done. eexists. split; [reflexivity|].
  match goal with |- pwf (mask_bits ?x) /\ _ => set (r := x) end.
  assert (Hr : length (pblocks r) = nblocks (pbits r)) by (cbn; rewrite zip_with_length, Hl, Hl', E; lia).
  split; [by apply mask_bits_wf|]. split; [by destruct (mask_bits_len r) as [_ ->]|].
  intros i Hi. rewrite mask_bits_spec by done. rewrite bool_decide_true by done. cbn [andb pbits]. unfold pbit. cbn [pblocks pbits r].
  rewrite lookup_zip_with. destruct (div_split i) as [Ei Hi64]. pose proof (nblocks_bounds (pbits t) ltac:(lia)).
  destruct (lookup_lt_is_Some_2 (pblocks t) (i / 64)) as [w Hw]; [lia|].
  destruct (lookup_lt_is_Some_2 (pblocks u) (i / 64)) as [w' Hw']; [rewrite Hl', <- E; lia|].
  rewrite Hw, Hw'. cbn. apply N.land_spec.
Qed.
Lemma nblocks_mono a b : a <= b -> nblocks a <= nblocks b.
Proof.
  intros H. destruct (decide (a = 0)) as [->|Ha]; [apply Nat.le_0_l|].
  pose proof (nblocks_bounds a ltac:(lia)). pose proof (nblocks_bounds b ltac:(lia)). lia.
Qed.
Lemma ptt_resize_spec n t : length (pblocks t) = nblocks (pbits t) ->
  pwf (ptt_resize n t) /\ pbits (ptt_resize n t) = n /\
  forall i, pbit (ptt_resize n t) i = bool_decide (i < n) && pbit t i.
Proof.
  intros Hl. unfold ptt_resize. match goal with |- pwf (mask_bits ?x) /\ _ => set (r := x) end.
  assert (Hr : length (pblocks r) = nblocks (pbits r)) by (cbn; rewrite app_length, take_length, repeat_length; lia).
  split; [by apply mask_bits_wf|]. split; [by destruct (mask_bits_len r) as [_ ->]|].
  intros i. rewrite mask_bits_spec by done. cbn [pbits r]. case_bool_decide as Hi; [|done]. cbn [andb].
  unfold pbit. cbn [pblocks pbits r]. destruct (div_split i) as [Ei Hi64]. pose proof (nblocks_bounds n ltac:(lia)).
  destruct (decide (i / 64 < length (pblocks t))) as [Hlt|Hge].
  - rewrite lookup_app_l by (rewrite take_length; lia). by rewrite lookup_take by lia.
  - rewrite (lookup_ge_None_2 (pblocks t)) by lia. rewrite lookup_app_r by (rewrite take_length; lia).
    rewrite take_length. rewrite lookup_repeat_lt by lia. apply N.bits_0.
Qed.
Lemma add_bit_spec wrap b t t' : pwf t -> add_bit wrap b t = Some t' ->
  pwf t' /\ pbits t' = S (pbits t) /\ forall i, pbit t' i = if decide (i = pbits t) then b else pbit t i.
Proof.
  intros [Hl Hh]. unfold add_bit.
  destruct (ptt_resize_spec (pbits t + 1) t Hl) as ([Wl Wh] & Eb & Hb).
  set (u := ptt_resize (pbits t + 1) t) in *.
  assert (Hu : forall i, pbit u i = pbit t i).
  { intros i. rewrite Hb. case_bool_decide; [done|]. symmetry. apply Hh. lia. }
  destruct b; cbn [negb].
  - intros (sh & Hsh & [= <-])%bind_Some. cbn [pbits].
    assert (Esh : sh = pbits t mod 64).
    { rewrite Eb in Hsh. replace (pbits t + 1) with (1 + pbits t) in Hsh by lia.
      rewrite Nat.add_mod in Hsh by done. rewrite (Nat.mod_small 1 64) in Hsh by lia.
      destruct (div_split (pbits t)) as [_ Hlt]. case_decide as Hz.
      - destruct wrap; [|done]. injection Hsh as <-.
        destruct (decide (pbits t mod 64 = 63)); [lia|]. rewrite Nat.mod_small in Hz by lia. lia.
      - injection Hsh as <-. destruct (decide (pbits t mod 64 = 63)) as [E|E]; [rewrite E in Hz; done|].
        rewrite Nat.mod_small by lia. lia. }
    subst sh. clear Hsh.
    assert (G : forall i, pbit (Ptt (alter (fun w => N.lor w (N.shiftl 1 (N.of_nat (pbits t mod 64)))) (length (pblocks u) - 1) (pblocks u)) (pbits u)) i
      = if decide (i = pbits t) then true else pbit t i).
    { intros i. rewrite <- Hu. unfold pbit. cbn [pblocks pbits]. rewrite Wl, Eb.
      pose proof (nblocks_bounds (pbits t + 1) ltac:(lia)) as Hnb.
      destruct (div_split i) as [Ei Hi]. destruct (div_split (pbits t)) as [Ep Hp].
      assert (Eq : nblocks (pbits t + 1) - 1 = pbits t / 64) by lia. rewrite Eq.
      destruct (decide (i / 64 = pbits t / 64)) as [E|E].
      - rewrite E, list_lookup_alter. destruct (lookup_lt_is_Some_2 (pblocks u) (pbits t / 64)) as [w Hw]; [rewrite Wl, Eb; lia|].
        rewrite Hw. cbn [option_map fmap option_fmap]. rewrite N.lor_spec, N.shiftl_1_l, N.pow2_bits_eqb.
        case_decide as Hd; [subst i; rewrite N.eqb_refl; apply orb_true_r|].
        destruct (N.eqb_spec (N.of_nat (pbits t mod 64)) (N.of_nat (i mod 64))); [lia|apply orb_false_r].
      - rewrite list_lookup_alter_ne by done. rewrite decide_False; [done|]. intros ->. done. }
    split; [|split; [rewrite Eb; lia|exact G]]. split; [cbn; by rewrite alter_length|]. cbn [pbits]. intros i Hi. rewrite G.
    rewrite decide_False by lia. apply Hh. lia.
  - intros [= <-]. split; [by split|]. split; [lia|]. intros i. rewrite Hu. case_decide as E; [|done]. subst i. by apply Hh.
Qed.
Lemma add_bit_total wrap b t : wrap = true \/ b = false \/ S (pbits t) mod 64 <> 0 -> is_Some (add_bit wrap b t).
Proof.
  intros H. unfold add_bit. destruct b; cbn [negb]; [|done].
  assert (E : pbits (ptt_resize (pbits t + 1) t) = S (pbits t)).
  { unfold ptt_resize. destruct (mask_bits_len (Ptt (take (nblocks (pbits t + 1)) (pblocks t) ++ repeat 0%N (nblocks (pbits t + 1) - length (pblocks t))) (pbits t + 1))) as [_ ->]. cbn. lia. }
  rewrite E. case_decide as Hz; [|done]. destruct wrap; [done|]. destruct H as [?|[?|?]]; done.
Qed.

Definition csig (b : bool) (t : ptt) : ptt := if b then ptt_not t else t.
Lemma csig_spec b t : pwf t -> pwf (csig b t) /\ pbits (csig b t) = pbits t /\ forall i, i < pbits t -> pbit (csig b t) i = xorb (pbit t i) b.
Proof.
  intros W. destruct b; cbn [csig].
  - destruct (ptt_not_spec t W) as (H1 & H2 & H3). split; [done|]. split; [done|]. intros i Hi. rewrite H3 by done. by rewrite xorb_true_r.
  - split; [done|]. split; [done|]. intros. by rewrite xorb_false_r.
Qed.
Lemma ptt_gate_spec k t u : pwf t -> pwf u -> pbits t = pbits u ->
  exists r, ptt_gate k t u = Some r /\ pwf r /\ pbits r = pbits t /\
    forall i, i < pbits t -> pbit r i = xorb (pbit t i) (scompl k.1) && xorb (pbit u i) (scompl k.2).
Proof.
  intros Wt Wu E. unfold ptt_gate. destruct (csig_spec (scompl k.1) t Wt) as (W1 & B1 & O1).
  destruct (csig_spec (scompl k.2) u Wu) as (W2 & B2 & O2). unfold csig in *.
  destruct (ptt_and_spec _ _ W1 W2) as (r & Er & Wr & Br & Or); [congruence|].
  exists r. split; [done|]. split; [done|]. split; [congruence|]. intros i Hi. rewrite Or by lia. rewrite O1, O2 by lia. done.
Qed.
Lemma ptt_update_spec k r t u r' : pwf r -> pwf t -> pwf u -> ptt_update k r t u = Some r' ->
  pwf r' /\ pbits r' = pbits t /\ pbits u = pbits t /\ pbits r <= pbits t /\
  forall i, i < pbits t -> pbit r' i = xorb (pbit t i) (scompl k.1) && xorb (pbit u i) (scompl k.2) \/
                           i < pbits r /\ pbit r' i = pbit r i.
Proof.
  intros Wr Wt Wu. unfold ptt_update. case_decide as Hd; [|done]. destruct Hd as (H0 & Etu & Hle & Hblk).
  intros (w1 & Hw1 & (w2 & Hw2 & [= <-])%bind_Some)%bind_Some.
  destruct (ptt_resize_spec (pbits t) r (pw_len _ Wr)) as (Wq & Eq & Oq). set (q := ptt_resize (pbits t) r) in *.
  match goal with |- pwf (mask_bits ?x) /\ _ => set (z := x) end.
  assert (Hz : length (pblocks z) = nblocks (pbits z)) by (cbn; rewrite insert_length; apply (pw_len _ Wq)).
  split; [by apply mask_bits_wf|]. split; [by destruct (mask_bits_len z) as [_ ->]; cbn|]. split; [done|]. split; [done|].
  intros i Hi. rewrite mask_bits_spec by done. cbn [pbits z]. rewrite Eq, bool_decide_true by done. cbn [andb].
  destruct (div_split i) as [Ei Hi64]. pose proof (nblocks_bounds (pbits t) H0) as Hb.
  pose proof (pw_len _ Wq) as Lq. pose proof (pw_len _ Wt) as Lt. pose proof (pw_len _ Wu) as Lu. pose proof (pw_len _ Wr) as Lr.
  rewrite Eq in Lq. rewrite <- Etu in Lu.
  unfold pbit. cbn [pblocks z]. rewrite Lq. destruct (decide (i / 64 = nblocks (pbits t) - 1)) as [E|E].
  - left. rewrite E, list_lookup_insert by lia. rewrite last_lookup in Hw1, Hw2.
    replace (pred (length (pblocks t))) with (nblocks (pbits t) - 1) in Hw1 by lia.
    replace (pred (length (pblocks u))) with (nblocks (pbits t) - 1) in Hw2 by lia.
    rewrite Hw1, Hw2, N.land_spec.
    assert (Gx : forall (b : bool) w, N.testbit (if b then N.lnot w 64 else w) (N.of_nat (i mod 64)) = xorb (N.testbit w (N.of_nat (i mod 64))) b).
    { intros [] w; [rewrite N.lnot_spec_low by lia; by rewrite xorb_true_r|by rewrite xorb_false_r]. }
    by rewrite !Gx.
  - right. rewrite list_lookup_insert_ne by done. specialize (Oq i). rewrite bool_decide_true in Oq by done. cbn [andb] in Oq.
    unfold pbit in Oq. rewrite Oq. split; [|done].
    destruct (decide (pbits r = 0)) as [Z|Z].
    + rewrite Z in Lr. change (nblocks 0) with 0 in Lr. destruct Hblk as [Hb1|[Hb1 _]]; lia.
    + pose proof (nblocks_bounds (pbits r) ltac:(lia)). destruct Hblk as [Hb1|[Hb1 Hb2]].
      * rewrite Lr, Lt in Hb1. lia.
      * rewrite Lr, Lt in Hb1. destruct (div_split (pbits r)). lia.
Qed.

(* ---- sessions ---- *)
Lemma correct_gate s ps (t : ptt) n (a b : signal) (u1 u2 : ptt) :
  ks s !! n = Some (a, b) -> n <> 0 -> a <> b -> pwf t ->
  correct s ps u1 (sidx a) -> correct s ps u2 (sidx b) -> pbits u1 = pbits t -> pbits u2 = pbits t ->
  (forall i, i < pbits t -> pbit t i = xorb (pbit u1 i) (scompl a) && xorb (pbit u2 i) (scompl b) \/
     exists r, correct s ps r n /\ i < pbits r /\ pbit t i = pbit r i) ->
  correct s ps t n.
Proof.
  intros Ek Hn Hab Wt C1 C2 B1 B2 H. split.
  - rewrite <- B1. apply C1.
  - intros i p env v Hi Hp He V. destruct (H i Hi) as [E|(r & Cr & Hir & E)].
    + rewrite E. rewrite (proj2 C1 i p env v), (proj2 C2 i p env v); try done; try lia.
      symmetry. by apply (val_gate _ _ _ V n a b).
    + rewrite E. by apply (proj2 Cr i p env v).
Qed.

Definition entries (s : aig) (ps : list (list bool)) (m : nmap) : Prop :=
  length m = size s /\ forall n t, m !! n = Some (Some t) -> pwf t /\ correct s ps t n.
Definition full_at (sim : psim) (m : nmap) (n : nat) : Prop := exists t, m !! n = Some (Some t) /\ pbits t = npat sim.

Lemma entries_insert s ps m n t : entries s ps m -> pwf t -> correct s ps t n -> entries s ps (<[n := Some t]> m).
Proof.
  intros [Hl H] W C. split; [by rewrite insert_length|]. intros n' t'. destruct (decide (n = n')) as [->|Hne].
  - destruct (decide (n' < length m)) as [Hlt|Hge].
    + rewrite list_lookup_insert by done. intros [= <-]. done.
    + rewrite list_insert_ge by lia. apply H.
  - rewrite list_lookup_insert_ne by done. apply H.
Qed.
Lemma full_insert sim m n t x : n < length m -> pbits t = npat sim -> full_at sim m x \/ x = n -> full_at sim (<[n := Some t]> m) x.
Proof.
  intros Hn Hb H. destruct (decide (n = x)) as [->|Hne].
  - exists t. by rewrite list_lookup_insert.
  - destruct H as [(u & Hu & Hub)| ->]; [|done]. exists u. by rewrite list_lookup_insert_ne.
Qed.

Lemma sim_cone_ok s ps sim fuel : length ps = npat sim -> forall re n m m', entries s ps m ->
  sim_cone s sim fuel re n m = Some m' ->
  entries s ps m' /\ full_at sim m' n /\ forall x, full_at sim m x -> full_at sim m' x.
Proof.
  intros Hps. induction fuel as [|fuel IH]; intros re n m m' He; [done|]. cbn [sim_cone].
  set (visit := fun c m => o ← m !! c; match o with
    | Some t => if decide (pbits t = npat sim) then Some m else sim_cone s sim fuel true c m
    | None => sim_cone s sim fuel false c m end).
  assert (Hv : forall c m m', entries s ps m -> visit c m = Some m' ->
    entries s ps m' /\ full_at sim m' c /\ forall x, full_at sim m x -> full_at sim m' x).
  { intros c m1 m2 He1. unfold visit. intros (o & Ho & H)%bind_Some. destruct o as [t|]; [|by apply (IH false)].
    case_decide as Hb; [|by apply (IH true)]. injection H as <-. split; [done|]. split; [by exists t|done]. }
  intros (ci & Hci & H)%bind_Some. case_decide as Hd; [done|].
  apply bind_Some in H as ([a b] & Ek & H). apply bind_Some in H as (m1 & E1 & H). apply bind_Some in H as (v1 & Hv1 & H).
  apply bind_Some in H as (m2 & E2 & H). apply bind_Some in H as (v2 & Hv2 & H). apply bind_Some in H as (v & Hvv & [= <-]).
  cbn [fst snd] in *.
  destruct (Hv _ _ _ He E1) as (He1 & (u1 & Hu1 & B1) & F1). destruct (Hv _ _ _ He1 E2) as (He2 & (u2 & Hu2 & B2) & F2).
  rewrite Hu1 in Hv1. injection Hv1 as <-. rewrite Hu2 in Hv2. injection Hv2 as <-.
  assert (Hn : n <> 0 /\ a <> b).
  { split; [tauto|]. intros ->. apply Hd. right. unfold is_ci in Hci. rewrite Ek in Hci. cbn in Hci. injection Hci as <-.
    by rewrite bool_decide_true. }
  assert (Hlt : n < length m2) by (rewrite (proj1 He2); by eapply lookup_lt_Some).
  destruct (proj2 He1 _ _ Hu1) as [W1 C1]. destruct (proj2 He2 _ _ Hu2) as [W2 C2].
  assert (Hc : pwf v /\ correct s ps v n /\ pbits v = npat sim).
  { destruct re.
    - apply bind_Some in Hvv as (r & Hr & Hvv). destruct (m2 !! n) as [[r'|]|] eqn:Er; try done. injection Hr as ->.
      destruct (proj2 He2 _ _ Er) as [Wr Cr].
      destruct (ptt_update_spec (a, b) r u1 u2 v Wr W1 W2 Hvv) as (Wv & Bv & _ & Hle & Ov).
      split; [done|]. split; [|congruence].
      apply (correct_gate s ps v n a b u1 u2); try done; try tauto; try congruence.
      intros i Hi. rewrite Bv in Hi. destruct (Ov i Hi) as [E|[E1' E2']]; [by left|]. right. by exists r.
    - destruct (ptt_gate_spec (a, b) u1 u2 W1 W2) as (r & Er & Wr & Br & Or); [congruence|].
      rewrite Er in Hvv. injection Hvv as <-. split; [done|]. split; [|congruence].
      apply (correct_gate s ps r n a b u1 u2); try done; try tauto; try congruence.
      intros i Hi. left. apply Or. congruence. }
  destruct Hc as (Wv & Cv & Bv). split; [by apply entries_insert|]. split; [apply full_insert; tauto|].
  intros x Hx. apply full_insert; [done|done|]. left. by apply F2, F1.
Qed.

Lemma represents_entry ps sim k npis t : represents ps sim npis -> patterns sim !! k = Some t ->
  pwf t /\ pbits t = npat sim /\ forall i p, ps !! i = Some p -> p !! k = Some (pbit t i).
Proof. intros (Hn & _ & _ & H) Hk. destruct (H k t Hk) as (B & L & Z & O). split; [by split|]. split; [congruence|done]. Qed.

Lemma update_const_pi_ok s ps sim m m' : network s -> represents ps sim (npi s) -> entries s ps m ->
  update_const_pi s sim m = Some m' ->
  entries s ps m' /\ full_at sim m' 0 /\ (forall n, n ∈ pis s -> full_at sim m' n) /\
  (forall x, x <> 0 -> x ∉ pis s -> m' !! x = m !! x) /\ forall x, full_at sim m x -> full_at sim m' x.
Proof.
  intros W R [Hl He]. unfold update_const_pi. set (c := psim_const sim false).
  pose proof R as (Hn & Hpl & _ & _).
  assert (H0s : 0 < size s) by (eapply lookup_lt_Some, (net_const _ W)).
  pose proof (net_ins_nodup s W) as [_ Hnd]%NoDup_cons.
  assert (Hpis : forall k n, pis s !! k = Some n -> ins s !! k = Some n /\ n <> 0 /\ n < size s).
  { intros k n Hk. unfold pis in Hk. apply lookup_take_Some in Hk as [Hk _].
    destruct (net_in _ W k n Hk) as [? E]. split; [done|]. split; [done|]. by eapply lookup_lt_Some. }
  destruct (set_inputs_spec (fun i => t ← patterns sim !! i; Some (Some t)) (pis s) (<[0 := Some c]> m)) as (m1 & -> & Hl1 & H1 & H2).
  { unfold pis. rewrite <- (take_drop (npi s)) in Hnd. by apply NoDup_app in Hnd as [? _]. }
  { intros i Hi. unfold pis in Hi. rewrite take_length in Hi.
    destruct (lookup_lt_is_Some_2 (patterns sim) i) as [t ->]; [lia|]. done. }
  { intros n [k Hk]%elem_of_list_lookup. rewrite insert_length, Hl. by destruct (Hpis k n Hk) as (_ & _ & ?). }
  intros [= <-]. rewrite insert_length in Hl1.
  assert (H0 : m1 !! 0 = Some (Some c)).
  { rewrite H2; [apply list_lookup_insert; lia|]. intros [k Hk]%elem_of_list_lookup. by apply Hpis in Hk as (_ & ? & _). }
  destruct (ptt_new_spec (npat sim)) as (Wc & Bc & Oc). change (ptt_new (npat sim)) with c in Wc, Bc, Oc.
  assert (Hin : forall n, n ∈ pis s -> exists k t, ins s !! k = Some n /\ k < npi s /\ patterns sim !! k = Some t /\ m1 !! n = Some (Some t)).
  { intros n [k Hk]%elem_of_list_lookup. destruct (Hpis _ _ Hk) as (Hk' & _).
    assert (k < npi s). { unfold pis in Hk. by apply lookup_take_Some in Hk as [_ ?]. }
    destruct (lookup_lt_is_Some_2 (patterns sim) k) as [t Ht]; [lia|].
    exists k, t. split; [done|]. split; [done|]. split; [done|]. by rewrite (H1 k n Hk), Ht. }
  assert (Hrest : forall x, x <> 0 -> x ∉ pis s -> m1 !! x = m !! x).
  { intros x Hx Hxp. rewrite H2 by done. by rewrite list_lookup_insert_ne. }
  assert (Hfp : forall n, n ∈ pis s -> full_at sim m1 n).
  { intros n Hp. destruct (Hin n Hp) as (k & t & _ & _ & Ht & Hm). exists t. split; [done|].
    by destruct (represents_entry ps sim k (npi s) t R Ht) as (_ & ? & _). }
  split.
  - split; [lia|]. intros n t Hm. destruct (decide (n = 0)) as [->|Hn0].
    + rewrite H0 in Hm. injection Hm as <-. split; [done|]. split; [rewrite Bc; lia|].
      intros i p env v Hi Hp He' V. rewrite Oc. symmetry. apply (val_const _ _ _ V).
    + destruct (decide (n ∈ pis s)) as [Hp|Hp]; [|rewrite Hrest in Hm by done; by apply He].
      destruct (Hin n Hp) as (k & t' & Hk & Hkn & Ht & Hm'). rewrite Hm' in Hm. injection Hm as ->.
      destruct (represents_entry ps sim k (npi s) t R Ht) as (Wt & Bt & Ot). split; [done|]. split; [lia|].
      intros i p env v Hi Hp' He' V. rewrite (val_input _ _ _ V k n Hk), (He' k Hkn), (Ot i p Hp'). done.
  - split; [by exists c|]. split; [done|]. split; [done|].
    intros x Hx. destruct (decide (x = 0)) as [->|Hx0]; [by exists c|].
    destruct (decide (x ∈ pis s)) as [Hp|Hp]; [by apply Hfp|]. unfold full_at. by rewrite Hrest.
Qed.

Lemma simulate_node_ok s ps sim n m m' : network s -> represents ps sim (npi s) -> entries s ps m ->
  simulate_node s sim n m = Some m' -> entries s ps m' /\ full_at sim m' n /\ forall x, full_at sim m x -> full_at sim m' x.
Proof.
  intros W R He. unfold simulate_node. intros (c & Hc & (m1 & E1 & (o & Ho & H)%bind_Some)%bind_Some)%bind_Some.
  pose proof (proj1 R) as Hps.
  assert (G : entries s ps m1 /\ forall x, full_at sim m x -> full_at sim m1 x).
  { case_decide as Hb.
    - injection E1 as <-. destruct c as [t|]; cbn [default from_option] in *.
      + rewrite list_insert_id by done. done.
      + assert (Hl0 : 0 < length m) by (by eapply lookup_lt_Some). split.
        * apply entries_insert; [done|split; [done|]|split; [cbn; lia|intros i ? ? ? Hi; cbn in Hi; lia]].
          intros i _. done.
        * intros x Hx. apply full_insert; tauto.
    - destruct (update_const_pi_ok s ps sim m m1 W R He E1) as (? & _ & _ & _ & ?). done. }
  destruct G as [He1 Hf1]. destruct o as [u|].
  - case_decide as Hb.
    + injection H as <-. split; [done|]. split; [by exists u|done].
    + destruct (sim_cone_ok s ps sim _ (eq_sym Hps) _ _ _ _ He1 H) as (? & ? & Hf2). split; [done|]. split; [done|]. intros x Hx. by apply Hf2, Hf1.
  - destruct (sim_cone_ok s ps sim _ (eq_sym Hps) _ _ _ _ He1 H) as (? & ? & Hf2). split; [done|]. split; [done|]. intros x Hx. by apply Hf2, Hf1.
Qed.

Lemma simulate_nodes_ptt_ok s ps sim whole m m' : network s -> represents ps sim (npi s) -> entries s ps m ->
  simulate_nodes_ptt s sim whole m = Some m' ->
  entries s ps m' /\
  ((whole = true -> forall n, live_gate s n -> m !! n = Some None \/ full_at sim m n) ->
   full_at sim m' 0 /\ (forall n, n ∈ pis s -> full_at sim m' n) /\ forall n, live_gate s n -> full_at sim m' n).
Proof.
  intros W R He. unfold simulate_nodes_ptt. pose proof (proj1 R) as Hps.
  intros (m1 & E1 & (gs & Egs & H)%bind_Some)%bind_Some.
  destruct (update_const_pi_ok s ps sim m m1 W R He E1) as (He1 & F0 & Fp & Hrest & Hf1).
  destruct (gates_live s W) as (gs' & Egs' & _ & Hgs). rewrite Egs in Egs'. injection Egs' as <-.
  assert (G : entries s ps m' /\ (forall x, full_at sim m1 x -> full_at sim m' x) /\
    ((whole = true -> forall n, n ∈ gs -> m1 !! n = Some None \/ full_at sim m1 n) -> forall n, n ∈ gs -> full_at sim m' n)).
  { clear E1 F0 Fp Hrest Hf1 He m Hgs Egs. revert m1 He1 H.
    assert (Hmono : forall x fuel re n (m m' : nmap), sim_cone s sim fuel re n m = Some m' -> m !! x = Some None ->
              entries s ps m -> m' !! x = Some None \/ full_at sim m' x).
    { intros x fuel. induction fuel as [|fuel IHf]; intros re n m0 m0' H0 Hx He; [done|]. cbn [sim_cone] in H0.
      set (visit := fun c m => o ← m !! c; match o with
        | Some t => if decide (pbits t = npat sim) then Some m else sim_cone s sim fuel true c m
        | None => sim_cone s sim fuel false c m end) in H0.
      assert (Hv : forall c m m', visit c m = Some m' -> entries s ps m -> entries s ps m' /\
        (m !! x = Some None \/ full_at sim m x -> m' !! x = Some None \/ full_at sim m' x)).
      { intros c m1 m2. unfold visit. intros (o & Ho & Hvv)%bind_Some He1.
        assert (G : m2 = m1 \/ exists re, sim_cone s sim fuel re c m1 = Some m2).
        { destruct o; [case_decide; [injection Hvv as <-; by left|]|]; right; eauto. }
        destruct G as [->|[re' G]]; [done|].
        destruct (sim_cone_ok s ps sim fuel (eq_sym Hps) _ _ _ _ He1 G) as (? & _ & Hf). split; [done|].
        intros [Hx1|Hx1]; [by apply (IHf re' c m1 m2)|right; by apply Hf]. }
      apply bind_Some in H0 as (ci & Hci & H0). case_decide; [done|].
      apply bind_Some in H0 as ([a b] & Ek & H0). apply bind_Some in H0 as (m1 & E1 & H0). apply bind_Some in H0 as (v1 & Hv1 & H0).
      apply bind_Some in H0 as (m2 & E2 & H0). apply bind_Some in H0 as (v2 & Hv2 & H0). apply bind_Some in H0 as (v & Hvv & [= <-]).
      destruct (Hv _ _ _ E1 He) as [He1 G1]. destruct (Hv _ _ _ E2 He1) as [He2 G2].
      specialize (G2 (G1 (or_introl Hx))).
      destruct (decide (x = n)) as [->|Hne].
      - right. assert (Hfull : sim_cone s sim (S fuel) re n m0 = Some (<[n:=Some v]> m2)).
        { cbn [sim_cone]. rewrite Hci. cbn [mbind option_bind]. rewrite decide_False by done. rewrite Ek. cbn [mbind option_bind].
          cbn [fst snd] in *. unfold visit in E1, E2. rewrite E1. cbn [mbind option_bind]. rewrite Hv1. cbn [mbind option_bind].
          rewrite E2. cbn [mbind option_bind]. rewrite Hv2. cbn [mbind option_bind]. rewrite Hvv. done. }
        by destruct (sim_cone_ok s ps sim (S fuel) (eq_sym Hps) _ _ _ _ He Hfull) as (_ & ? & _).
      - unfold full_at. by rewrite list_lookup_insert_ne by done. }
    induction gs as [|g gs IH]; intros m1 He1 H.
    - cbn in H. injection H as <-. split; [done|]. split; [done|]. intros _ n Hn. by apply elem_of_nil in Hn.
    - cbn [opt_fold] in H. apply bind_Some in H as (m2 & E2 & H). apply bind_Some in E2 as (o & Ho & E2).
      assert (G : m2 = m1 \/ exists re, sim_cone s sim (S (size s)) re g m1 = Some m2).
      { destruct o; destruct whole; try (injection E2 as <-; by left); try done; [case_decide; [injection E2 as <-; by left|]|]; right; eauto. }
      assert (G2 : entries s ps m2 /\ (forall x, full_at sim m1 x -> full_at sim m2 x) /\
        (forall x, m1 !! x = Some None -> m2 !! x = Some None \/ full_at sim m2 x)).
      { destruct G as [->|[re G]]; [split; [done|]; split; [done|by left]|].
        destruct (sim_cone_ok s ps sim _ (eq_sym Hps) _ _ _ _ He1 G) as (? & _ & ?). split; [done|]. split; [done|].
        intros x Hx. by apply (Hmono x _ _ _ _ _ G). }
      destruct G2 as (He2 & Hf2 & Hn2). destruct (IH m2 He2 H) as (He' & Hf' & Hg'). split; [done|]. split; [intros x Hx; by apply Hf', Hf2|].
      intros Hw n [->|Hn]%elem_of_cons.
      + apply Hf'. destruct o as [t|].
        * destruct whole; [|case_decide as Hb; [injection E2 as <-; by exists t|]].
          -- injection E2 as <-. destruct (Hw eq_refl g ltac:(constructor)) as [Hx|Hx]; [congruence|done].
          -- by destruct (sim_cone_ok s ps sim _ (eq_sym Hps) _ _ _ _ He1 E2) as (_ & ? & _).
        * destruct whole; [|done]. by destruct (sim_cone_ok s ps sim _ (eq_sym Hps) _ _ _ _ He1 E2) as (_ & ? & _).
      + apply Hg'; [|done]. intros Hwt n' Hn'. destruct (Hw Hwt n' ltac:(by constructor)) as [Hx|Hx]; [by apply Hn2|right; by apply Hf2]. }
  destruct G as (He' & Hf' & Hg'). split; [done|]. intros Hw. split; [by apply Hf'|]. split; [intros; by apply Hf', Fp|].
  intros n Hn. apply Hg'; [|by apply Hgs]. intros Hwt n' Hn'%Hgs. destruct (Hw Hwt n' Hn') as [Hx|Hx]; [|right; by apply Hf1].
  destruct Hn' as [(a & b & Ek & Hn0 & Hab) _]. left. rewrite Hrest; [done|done|].
  unfold pis. intros [k Hk]%elem_of_list_lookup. apply lookup_take_Some in Hk as [Hk _].
  destruct (net_in _ W k n' Hk) as [_ E]. rewrite E in Ek. injection Ek as <- <-. done.
Qed.

(* success *)
Lemma ptt_update_total k r t u sim : pwf r -> pwf t -> pwf u -> recent sim r -> pbits t = npat sim -> pbits u = npat sim ->
  0 < npat sim -> is_Some (ptt_update k r t u).
Proof.
  intros Wr Wt Wu Hr Bt Bu Hp. unfold ptt_update.
  pose proof (pw_len _ Wr) as Lr. pose proof (pw_len _ Wt) as Lt. pose proof (pw_len _ Wu) as Lu. rewrite Bt in Lt. rewrite Bu in Lu.
  pose proof (nblocks_bounds _ Hp) as Hb.
  rewrite decide_True.
  - destruct (lookup_lt_is_Some_2 (pblocks t) (nblocks (npat sim) - 1)) as [w1 H1]; [lia|].
    destruct (lookup_lt_is_Some_2 (pblocks u) (nblocks (npat sim) - 1)) as [w2 H2]; [lia|].
    rewrite !last_lookup. replace (pred (length (pblocks t))) with (nblocks (npat sim) - 1) by lia.
    replace (pred (length (pblocks u))) with (nblocks (npat sim) - 1) by lia. rewrite H1, H2. done.
  - rewrite Bt, Bu. destruct Hr as [Hr|(_ & Hle & Hr)].
    + rewrite Hr in *. rewrite Lr, Lt. split; [done|]. split; [done|]. split; [lia|]. by left.
    + split; [done|]. split; [done|]. split; [done|]. rewrite Lr, Lt. destruct Hr as [Hr|[Hr Hm]]; [by left|right]. split; [lia|done].
Qed.

Definition ready (s : aig) (sim : psim) (m : nmap) : Prop := full_at sim m 0 /\ forall n, n ∈ ins s -> full_at sim m n.
Definition near (sim : psim) (m : nmap) : Prop := forall n t, m !! n = Some (Some t) -> recent sim t.

Lemma sim_cone_total s ps sim (rank : nat -> nat) : network s -> (forall n m, fanin s n m -> rank m < rank n) ->
  length ps = npat sim -> forall fuel re n m, rank n < fuel -> is_gate s n -> entries s ps m -> ready s sim m -> near sim m ->
  (re = true -> 0 < npat sim /\ exists t, m !! n = Some (Some t)) ->
  exists m', sim_cone s sim fuel re n m = Some m' /\ near sim m' /\
    (forall x t, m !! x = Some (Some t) -> exists t', m' !! x = Some (Some t')).
Proof.
  intros W Hrank Hps. induction fuel as [|fuel IH]; intros re n m Hfuel Hg He Hr Hn Hre; [lia|]. cbn [sim_cone].
  set (visit := fun c m => o ← m !! c; match o with
    | Some t => if decide (pbits t = npat sim) then Some m else sim_cone s sim fuel true c m
    | None => sim_cone s sim fuel false c m end).
  assert (Hv : forall c m, fanin s n c -> entries s ps m -> ready s sim m -> near sim m ->
    exists m', visit c m = Some m' /\ entries s ps m' /\ full_at sim m' c /\ ready s sim m' /\ near sim m' /\
      (forall x t, m !! x = Some (Some t) -> exists t', m' !! x = Some (Some t'))).
  { intros c m1 Hc He1 Hr1 Hn1. unfold visit.
    assert (Hcl : c < size s) by (by eapply net_gate).
    destruct (lookup_lt_is_Some_2 m1 c) as [o Ho]; [by rewrite (proj1 He1)|]. rewrite Ho. cbn [mbind option_bind].
    assert (G : full_at sim m1 c \/ is_gate s c).
    { destruct (lookup_lt_is_Some_2 (ks s) c Hcl) as [k Hk].
      destruct (net_node s c k W Hk) as [->|[Hi|Hgc]]; [left; exact (proj1 Hr1)|left; by apply (proj2 Hr1)|by right]. }
    assert (Hdec : (exists t, o = Some t /\ pbits t = npat sim) \/ ~ (exists t, o = Some t /\ pbits t = npat sim)).
    { destruct o as [t|]; [|right; by intros (? & ? & _)]. destruct (decide (pbits t = npat sim)) as [Hb|Hb]; [left; eauto|right].
      intros (t' & [= <-] & ?). done. }
    destruct Hdec as [(t & -> & Hb)|Hno].
    { rewrite decide_True by done. exists m1. split; [done|]. split; [done|]. split; [by exists t|]. split; [done|]. split; [done|]. eauto. }
    destruct G as [(t & Ht & Hb)|Hgc]; [exfalso; apply Hno; exists t; split; [congruence|done]|].
    assert (exists re', (match o with Some t => if decide (pbits t = npat sim) then Some m1 else sim_cone s sim fuel true c m1
        | None => sim_cone s sim fuel false c m1 end) = sim_cone s sim fuel re' c m1 /\ (re' = true -> 0 < npat sim /\ exists t, m1 !! c = Some (Some t))) as (re' & -> & Hre').
    { destruct o as [t|]; [|exists false; done]. exists true. rewrite decide_False by (intros ?; apply Hno; eauto).
      split; [done|]. intros _. split; [|by exists t]. destruct (proj2 He1 _ _ Ho) as [_ [Hle _]].
      destruct (decide (npat sim = 0)) as [Z|Z]; [|lia]. exfalso. apply Hno. exists t. split; [done|]. lia. }
    destruct (IH re' c m1) as (m2 & E2 & Hn2 & Hp2); try done.
    { specialize (Hrank n c Hc). lia. }
    destruct (sim_cone_ok s ps sim fuel Hps _ _ _ _ He1 E2) as (He2 & Hf2 & Hm2).
    exists m2. split; [done|]. split; [done|]. split; [done|]. split; [|done]. split; [exact (Hm2 _ (proj1 Hr1))|]. intros x Hx. by apply Hm2, (proj2 Hr1). }
  destruct Hg as (a & b & Ek & Hn0 & Hab).
  assert (Hci : is_ci s n = Some false) by (unfold is_ci; rewrite Ek; cbn; by rewrite bool_decide_false).
  rewrite Hci. cbn [mbind option_bind]. rewrite decide_False by (intros [?|?]; done). rewrite Ek. cbn [mbind option_bind fst snd].
  destruct (Hv (sidx a) m) as (m1 & E1 & He1 & (u1 & Hu1 & B1) & Hr1 & Hn1 & Hp1); [exists a, b; tauto|done|done|done|].
  unfold visit in E1. cbn beta in E1. rewrite E1. clear E1.
  cbn [mbind option_bind]. rewrite Hu1. cbn [mjoin option_join mbind option_bind].
  destruct (Hv (sidx b) m1) as (m2 & E2 & He2 & (u2 & Hu2 & B2) & Hr2 & Hn2 & Hp2); [exists a, b; tauto|done|done|done|].
  unfold visit in E2. cbn beta in E2. rewrite E2. clear E2.
  cbn [mbind option_bind]. rewrite Hu2. cbn [mjoin option_join mbind option_bind].
  destruct (proj2 He1 _ _ Hu1) as [W1 _]. destruct (proj2 He2 _ _ Hu2) as [W2 _].
  assert (Hres : exists v, (if re then r ← mjoin (m2 !! n); ptt_update (a, b) r u1 u2 else ptt_gate (a, b) u1 u2) = Some v /\ pbits v = npat sim).
  { destruct re.
    - destruct (Hre eq_refl) as [Hpos [t Ht]]. destruct (Hp1 _ _ Ht) as [t1 Ht1]. destruct (Hp2 _ _ Ht1) as [t2 Ht2].
      rewrite Ht2. cbn [mjoin option_join mbind option_bind]. destruct (proj2 He2 _ _ Ht2) as [Wt [Hle _]].
      destruct (ptt_update_total (a, b) t2 u1 u2 sim Wt W1 W2 (Hn2 _ _ Ht2) B1 B2 Hpos) as [v Hvv]. exists v. split; [done|].
      destruct (ptt_update_spec (a, b) t2 u1 u2 v Wt W1 W2 Hvv) as (_ & ? & _). congruence.
    - destruct (ptt_gate_spec (a, b) u1 u2 W1 W2) as (v & Er & _ & Br & _); [congruence|]. exists v. split; [done|congruence]. }
  destruct Hres as (v & -> & Bv). cbn [mbind option_bind]. eexists. split; [reflexivity|].
  assert (Hlt : n < length m2) by (rewrite (proj1 He2); by eapply lookup_lt_Some).
  split.
  - intros x t. destruct (decide (n = x)) as [->|Hne].
    + rewrite list_lookup_insert by done. intros [= <-]. by left.
    + rewrite list_lookup_insert_ne by done. apply Hn2.
  - intros x t Hx. destruct (decide (n = x)) as [->|Hne]; [rewrite list_lookup_insert by done; eauto|].
    rewrite list_lookup_insert_ne by done. destruct (Hp1 _ _ Hx) as [t1 Ht1]. by apply (Hp2 _ t1).
Qed.

Lemma simulate_nodes_total s ps sim whole m : network s -> npi s = length (ins s) -> represents ps sim (npi s) ->
  entries s ps m -> near sim m ->
  (whole = false -> forall n, live_gate s n -> exists t, m !! n = Some (Some t)) ->
  exists m', simulate_nodes_ptt s sim whole m = Some m'.
Proof.
  intros W Hreg R He Hnear Hw. unfold simulate_nodes_ptt. pose proof (proj1 R) as Hps.
  destruct (net_rank s W) as (rank & Hrank & Hrs).
  assert (exists m1, update_const_pi s sim m = Some m1) as [m1 E1].
  { unfold update_const_pi. edestruct (set_inputs_spec (fun i => t ← patterns sim !! i; Some (Some t)) (pis s)) as (m1 & E1 & _); [| | |by exists m1].
    - pose proof (net_ins_nodup s W) as [_ Hnd]%NoDup_cons. unfold pis. rewrite <- (take_drop (npi s)) in Hnd. by apply NoDup_app in Hnd as [? _].
    - intros i Hi. unfold pis in Hi. rewrite take_length in Hi. destruct R as (_ & Hpl & _).
      destruct (lookup_lt_is_Some_2 (patterns sim) i) as [t ->]; [lia|]. done.
    - intros n [k Hk]%elem_of_list_lookup. unfold pis in Hk. apply lookup_take_Some in Hk as [Hk _].
      destruct (net_in _ W k n Hk) as [_ E]. rewrite insert_length, (proj1 He). by eapply lookup_lt_Some. }
  rewrite E1. cbn [mbind option_bind].
  destruct (update_const_pi_ok s ps sim m m1 W R He E1) as (He1 & F0 & Fp & Hrest & Hf1).
  destruct (gates_live s W) as (gs & -> & _ & Hgs). cbn [mbind option_bind].
  assert (Ep : pis s = ins s) by (unfold pis; rewrite Hreg; by apply firstn_all).
  assert (Hn1 : near sim m1).
  { intros n t Hn. destruct (decide (n = 0)) as [->|Hn0]; [destruct F0 as (t' & Ht' & Hb); left; congruence|].
    destruct (decide (n ∈ pis s)) as [Hp|Hp]; [destruct (Fp n Hp) as (t' & Ht' & Hb); left; congruence|].
    rewrite Hrest in Hn by done. by apply (Hnear n). }
  assert (Hw1 : whole = false -> forall n, n ∈ gs -> exists t, m1 !! n = Some (Some t)).
  { intros Hwf n Hn%Hgs. destruct (Hw Hwf n Hn) as [t Ht]. exists t. rewrite Hrest; [done| |].
    - by destruct Hn as [(a & b & _ & ? & _) _].
    - destruct Hn as [(a & b & Ek & _ & Hab) _]. rewrite Ep. intros [k Hk]%elem_of_list_lookup.
      destruct (net_in _ W k n Hk) as [_ E]. rewrite E in Ek. injection Ek as <- <-. done. }
  rewrite Ep in Fp.
  edestruct (opt_fold_inv (fun m n => o ← m !! n;
    match o with
    | Some t => if whole then Some m else if decide (pbits t = npat sim) then Some m else sim_cone s sim (S (size s)) true n m
    | None => if whole then sim_cone s sim (S (size s)) false n m else None
    end) (fun _ m => entries s ps m /\ ready s sim m /\ near sim m /\
        (whole = false -> forall n, n ∈ gs -> exists t, m !! n = Some (Some t))) gs m1) as (m' & -> & _); [| |by exists m'].
  - intros pre n rest m2 E (He2 & Hr2 & Hn2 & Hw2).
    assert (Hg : live_gate s n) by (apply Hgs; rewrite E; apply elem_of_app; right; constructor).
    assert (Hng : n ∈ gs) by (by apply Hgs).
    destruct Hg as [Hg _]. pose proof Hg as (a & b & Ek & _ & _).
    destruct (lookup_lt_is_Some_2 m2 n) as [o Ho]; [rewrite (proj1 He2); by eapply lookup_lt_Some|]. rewrite Ho. cbn [mbind option_bind].
    assert (G : forall re, (re = true -> 0 < npat sim /\ exists t, m2 !! n = Some (Some t)) ->
      exists m3, sim_cone s sim (S (size s)) re n m2 = Some m3 /\ entries s ps m3 /\ ready s sim m3 /\ near sim m3 /\
        (whole = false -> forall n, n ∈ gs -> exists t, m3 !! n = Some (Some t))).
    { intros re Hre. destruct (sim_cone_total s ps sim rank W Hrank (eq_sym Hps) (S (size s)) re n m2) as (m3 & E3 & Hn3 & Hp3); try done.
      - specialize (Hrs n). lia.
      - destruct (sim_cone_ok s ps sim _ (eq_sym Hps) _ _ _ _ He2 E3) as (He3 & _ & Hm3).
        exists m3. split; [done|]. split; [done|]. split; [split; [exact (Hm3 _ (proj1 Hr2))|intros x Hx; by apply Hm3, (proj2 Hr2)]|]. split; [done|].
        intros Hwf x Hx. destruct (Hw2 Hwf x Hx) as [t Ht]. by apply (Hp3 x t). }
    destruct o as [t|].
    + destruct whole; [exists m2; done|]. case_decide as Hb; [exists m2; done|]. apply G. intros _. split; [|by exists t].
      destruct (proj2 He2 _ _ Ho) as [_ [Hle _]]. lia.
    + destruct whole; [apply G; done|]. destruct (Hw2 eq_refl n Hng) as [t Ht]. congruence.
  - split; [done|]. split; [done|]. done.
Qed.

(* the invariant of sessions *)
Lemma represents_add wrap ps sim npis p sim' : represents ps sim npis -> add_pattern wrap p sim = Some sim' ->
  represents (ps ++ [p]) sim' npis.
Proof.
  intros (Hn & Hl & HF & H). unfold add_pattern. intros (ts & Hts & [= <-])%bind_Some.
  assert (G : forall p ts0 ts, add_bits wrap p ts0 = Some ts -> length p = length ts0 /\
    length ts = length ts0 /\ forall k t', ts !! k = Some t' -> exists t b, ts0 !! k = Some t /\ p !! k = Some b /\ add_bit wrap b t = Some t').
  { clear. induction p as [|b p IH]; intros [|t ts0] ts; cbn; try done.
    - intros [= <-]. split; [done|]. split; [done|]. intros k t'. by rewrite lookup_nil.
    - intros (t' & Ht & (r & Hr & [= <-])%bind_Some)%bind_Some. destruct (IH _ _ Hr) as (E1 & E2 & E3). cbn.
      split; [lia|]. split; [lia|]. intros [|k] t''; cbn; [intros [= <-]; eauto|apply E3]. }
  destruct (G _ _ _ Hts) as (E1 & E2 & E3). split; [cbn; rewrite app_length; cbn; lia|]. split; [cbn; lia|]. split.
  - apply Forall_app. split; [done|]. constructor; [lia|done].
  - cbn [patterns]. intros k t' Hk. destruct (E3 k t' Hk) as (t & b & Ht & Hb & Hadd).
    destruct (H k t Ht) as (B & L & Z & O).
    destruct (add_bit_spec wrap b t t' ltac:(by split) Hadd) as ([L' Z'] & B' & O').
    split; [rewrite app_length; cbn; lia|]. split; [done|]. split; [done|].
    intros i q Hi. rewrite O'. apply lookup_app_Some in Hi as [Hi|[Hi1 Hi2]].
    + apply lookup_lt_Some in Hi as Hlt. rewrite decide_False by lia. by apply O.
    + apply list_lookup_singleton_Some in Hi2 as [Hi0 <-]. rewrite decide_True by lia. done.
Qed.
Lemma correct_add s ps p t n : correct s ps t n -> correct s (ps ++ [p]) t n.
Proof.
  intros [Hle H]. split; [rewrite app_length; lia|]. intros i q env v Hi Hq He V. apply (H i q env v); try done.
  apply lookup_app_Some in Hq as [?|[? _]]; [done|lia].
Qed.
Lemma session_inv wrap s ps sim m : network s -> session wrap s ps sim m -> represents ps sim (npi s) /\ entries s ps m.
Proof.
  intros W. induction 1 as [ps sim HR|ps sim m p sim' _ [IR IE] Ha|ps sim m n m' _ [IR IE] Hs|ps sim m whole m' _ [IR IE] Hs|ps sim m n _ [IR IE]].
  - split; [done|]. split; [apply repeat_length|]. intros n t Hn. apply elem_of_list_lookup_2, elem_of_list_In, repeat_spec in Hn. done.
  - split; [by eapply represents_add|]. destruct IE as [Hl He]. split; [done|]. intros n t Hn. destruct (He n t Hn). split; [done|]. by apply correct_add.
  - split; [done|]. by destruct (simulate_node_ok s ps sim n m m' W IR IE Hs).
  - split; [done|]. by destruct (simulate_nodes_ptt_ok s ps sim whole m m' W IR IE Hs).
  - split; [done|]. destruct IE as [Hl He]. split; [by rewrite insert_length|]. intros n' t. destruct (decide (n = n')) as [->|Hne].
    + destruct (decide (n' < length m)); [rewrite list_lookup_insert by done; done|rewrite list_insert_ge by lia; apply He].
    + rewrite list_lookup_insert_ne by done. apply He.
Qed.
