(* Proofs about dereferencing and referencing cones. *)
From Verif Require Import Base Aig AigSem AigHash AigProofs AigApi Topo Clean NetProofs RefDeref.
From Coq Require Import ZArith.
Local Open Scope Z_scope.

(* ---- both procedures as one, over integers: dereferencing counts down to 0,
   referencing is the same walk on 1 - value ---- *)
Section walk.
Context (s : aig) (stop : nat -> option bool).

Fixpoint zwalk (fuel : nat) (n : nat) : M (nat -> Z) nat := fun V =>
  match fuel with
  | O => None
  | S fuel' =>
      e ← stop n;
      if e : bool then Some (0%nat, V)
      else
        fs ← aig_fan s n;
        foldM (fun res c V =>
          _ ← ks s !! c;
          let V1 := setv V c (V c - 1) in
          if decide (V1 c = 0) then '(r, V2) ← zwalk fuel' c V1; Some ((res + r)%nat, V2)
          else Some (res, V1)) 1%nat fs V
  end.
Definition zstep (fuel : nat) (res c : nat) : M (nat -> Z) nat := fun V =>
  _ ← ks s !! c;
  let V1 := setv V c (V c - 1) in
  if decide (V1 c = 0) then '(r, V2) ← zwalk fuel c V1; Some ((res + r)%nat, V2)
  else Some (res, V1).

Lemma foldM_cons {S A B} (f : B -> A -> M S B) b x l st :
  foldM f b (x :: l) st = match f b x st with Some (b', st') => foldM f b' l st' | None => None end.
Proof. reflexivity. Qed.

Lemma setv_le (V : nat -> Z) c y : setv V c (V c - 1) y <= V y.
Proof. unfold setv. destruct (decide (y = c)) as [->|]; lia. Qed.

Lemma zwalk_mono fuel n V r V' : zwalk fuel n V = Some (r, V') -> forall y, V' y <= V y.
Proof.
  revert n V r V'. induction fuel as [|fuel IH]; intros n V r V' E y; [done|]. cbn [zwalk] in E.
  destruct (stop n) as [[]|]; cbn [mbind option_bind] in E; [by injection E as <- <-| |done].
  destruct (aig_fan s n) as [fs|]; cbn [mbind option_bind] in E; [|done].
  change (foldM (zstep fuel) 1%nat fs V = Some (r, V')) in E. revert E. generalize 1%nat as acc. revert V.
  induction fs as [|c fs IHl]; intros V acc E; [cbn in E; by injection E as <- <-|].
  rewrite foldM_cons in E. unfold zstep at 1 in E.
  destruct (ks s !! c); cbn [mbind option_bind] in E; [|done].
  pose proof (setv_le V c y) as H1.
  case_decide as Hz.
  - destruct (zwalk fuel c (setv V c (V c - 1))) as [[r1 V2]|] eqn:E2; cbn [mbind option_bind] in E; [|done].
    apply IHl in E. apply IH with (y := y) in E2. lia.
  - apply IHl in E. lia.
Qed.

(* ---- the machine versions follow the walk as long as nothing wraps ---- *)
Definition rel (V : nat -> Z) (v : values) : Prop := forall y, Z.of_N (v y) = V y mod 2 ^ 32.

Lemma rel_setv V v c x z : rel V v -> Z.of_N z = x mod 2 ^ 32 -> rel (setv V c x) (setv v c z).
Proof. intros H Hz y. unfold setv. by case_decide. Qed.
Lemma u32_Z x : Z.of_N (u32 x) = Z.of_N x mod 2 ^ 32.
Proof. unfold u32. rewrite N2Z.inj_mod. done. Qed.

Lemma sim_deref fuel n V v r V' : rel V v -> zwalk fuel n V = Some (r, V') ->
  (forall y, V y < 2 ^ 32) -> (forall y, - 2 ^ 32 < V' y) ->
  exists v', deref s stop fuel n v = Some (r, v') /\ rel V' v'.
Proof.
  revert n V v r V'. induction fuel as [|fuel IH]; intros n V v r V' Hrel E Hhi Hlo; [done|].
  cbn [zwalk] in E. cbn [deref].
  destruct (stop n) as [[]|]; cbn [mbind option_bind] in E |- *; [injection E as <- <-; eauto| |done].
  destruct (aig_fan s n) as [fs|]; cbn [mbind option_bind] in E |- *; [|done].
  change (foldM (zstep fuel) 1%nat fs V = Some (r, V')) in E. revert E. generalize 1%nat as acc. revert V v Hrel Hhi.
  induction fs as [|c fs IHl]; intros V v Hrel Hhi acc E.
  { cbn in E. injection E as <- <-. exists v. split; [reflexivity|done]. }
  rewrite foldM_cons in E. rewrite foldM_cons. unfold zstep at 1 in E.
  destruct (ks s !! c); cbn [mbind option_bind] in E |- *; [|done].
  set (V1 := setv V c (V c - 1)) in *. set (v1 := setv v c _).
  assert (Hrel1 : rel V1 v1).
  { apply rel_setv; [done|]. rewrite u32_Z. pose proof (Hrel c). 
    replace (Z.of_N (v c + (2 ^ 32 - 1))) with (V c mod 2 ^ 32 + (2 ^ 32 - 1)) by lia.
    rewrite Zplus_mod_idemp_l. replace (V c + (2 ^ 32 - 1)) with (V c - 1 + 1 * 2 ^ 32) by lia. apply Z_mod_plus_full. }
  assert (Hhi1 : forall y, V1 y < 2 ^ 32).
  { intros y. unfold V1, setv. destruct (decide (y = c)); [pose proof (Hhi c); lia|apply Hhi]. }
  assert (Hmono : forall l a V V', foldM (zstep fuel) a l V = Some (r, V') -> forall y, V' y <= V y).
  { clear. induction l as [|c l IHl]; intros a V V' E y; [cbn in E; by injection E as <- <-|].
    rewrite foldM_cons in E. unfold zstep at 1 in E. destruct (ks s !! c); cbn [mbind option_bind] in E; [|done].
    pose proof (setv_le V c y). case_decide.
    - destruct (zwalk fuel c (setv V c (V c - 1))) as [[r1 V2]|] eqn:E2; cbn [mbind option_bind] in E; [|done].
      apply IHl with (y := y) in E. apply zwalk_mono with (y := y) in E2. lia.
    - apply IHl with (y := y) in E. lia. }
  assert (Hlo1 : - 2 ^ 32 < V1 c).
  { destruct (decide (V1 c = 0)); [lia|]. apply Hmono with (y := c) in E. pose proof (Hlo c). lia. }
  assert (Hz : v1 c = 0%N <-> V1 c = 0).
  { pose proof (Hrel1 c) as Hc. pose proof (Hhi1 c). split; intros H0.
    - rewrite H0 in Hc. destruct (decide (0 <= V1 c)); [rewrite Z.mod_small in Hc by lia; lia|].
      rewrite <- (Z_mod_plus_full (V1 c) 1) in Hc. rewrite Z.mod_small in Hc by lia. lia.
    - rewrite H0 in Hc. rewrite Z.mod_small in Hc by lia. lia. }
  destruct (decide (V1 c = 0)) as [H0|H0].
  - rewrite decide_True by (by apply Hz).
    destruct (zwalk fuel c V1) as [[r1 V2]|] eqn:E2; cbn [mbind option_bind] in E; [|done].
    destruct (IH c V1 v1 r1 V2 Hrel1 E2 Hhi1) as (v2 & Ev & Hrel2).
    { intros y. apply Hmono with (y := y) in E. pose proof (Hlo y). lia. }
    rewrite Ev. cbn [mbind option_bind]. apply (IHl V2 v2 Hrel2); [|exact E].
    intros y. apply zwalk_mono with (y := y) in E2. pose proof (Hhi1 y). lia.
  - rewrite decide_False by (by rewrite Hz). by apply (IHl V1 v1 Hrel1 Hhi1).
Qed.

Lemma sim_ref fuel n V v r V' : rel (fun y => 1 - V y) v -> zwalk fuel n V = Some (r, V') ->
  (forall y, V y <= 2 ^ 32) -> (forall y, - 2 ^ 32 < V' y) ->
  exists v', ref s stop fuel n v = Some (r, v') /\ rel (fun y => 1 - V' y) v'.
Proof.
  revert n V v r V'. induction fuel as [|fuel IH]; intros n V v r V' Hrel E Hhi Hlo; [done|].
  cbn [zwalk] in E. cbn [ref].
  destruct (stop n) as [[]|]; cbn [mbind option_bind] in E |- *; [injection E as <- <-; eauto| |done].
  destruct (aig_fan s n) as [fs|]; cbn [mbind option_bind] in E |- *; [|done].
  change (foldM (zstep fuel) 1%nat fs V = Some (r, V')) in E. revert E. generalize 1%nat as acc. revert V v Hrel Hhi.
  induction fs as [|c fs IHl]; intros V v Hrel Hhi acc E.
  { cbn in E. injection E as <- <-. exists v. split; [reflexivity|done]. }
  rewrite foldM_cons in E. rewrite foldM_cons. unfold zstep at 1 in E.
  destruct (ks s !! c); cbn [mbind option_bind] in E |- *; [|done].
  set (V1 := setv V c (V c - 1)) in *. set (v1 := setv v c _).
  assert (Hrel1 : rel (fun y => 1 - V1 y) v1).
  { intros y. unfold V1, v1, setv. destruct (decide (y = c)); [|apply Hrel]. subst y. rewrite u32_Z. pose proof (Hrel c).
    replace (Z.of_N (v c + 1)) with ((1 - V c) mod 2 ^ 32 + 1) by lia.
    rewrite Zplus_mod_idemp_l. f_equal. lia. }
  assert (Hhi1 : forall y, V1 y <= 2 ^ 32).
  { intros y. unfold V1, setv. destruct (decide (y = c)); [pose proof (Hhi c); lia|apply Hhi]. }
  assert (Hhi2 : V1 c < 2 ^ 32) by (unfold V1, setv; rewrite decide_True by done; pose proof (Hhi c); lia).
  assert (Hmono : forall l a V V', foldM (zstep fuel) a l V = Some (r, V') -> forall y, V' y <= V y).
  { clear. induction l as [|c l IHl]; intros a V V' E y; [cbn in E; by injection E as <- <-|].
    rewrite foldM_cons in E. unfold zstep at 1 in E. destruct (ks s !! c); cbn [mbind option_bind] in E; [|done].
    pose proof (setv_le V c y). case_decide.
    - destruct (zwalk fuel c (setv V c (V c - 1))) as [[r1 V2]|] eqn:E2; cbn [mbind option_bind] in E; [|done].
      apply IHl with (y := y) in E. apply zwalk_mono with (y := y) in E2. lia.
    - apply IHl with (y := y) in E. lia. }
  assert (Hlo1 : - 2 ^ 32 < V1 c).
  { destruct (decide (V1 c = 0)); [lia|]. apply Hmono with (y := c) in E. pose proof (Hlo c). lia. }
  assert (Hz : v1 c = 1%N <-> V1 c = 0).
  { pose proof (Hrel1 c) as Hc. cbn beta in Hc. split; intros H0.
    - rewrite H0 in Hc. destruct (decide (0 <= 1 - V1 c)) as [|].
      + destruct (decide (1 - V1 c < 2 ^ 32)); [rewrite Z.mod_small in Hc by lia; lia|].
        replace (1 - V1 c) with (0 + 1 * 2 ^ 32) in Hc by lia. rewrite Z_mod_plus_full in Hc. done.
      + rewrite <- (Z_mod_plus_full (1 - V1 c) 1) in Hc. rewrite Z.mod_small in Hc by lia. lia.
    - rewrite H0 in Hc. change ((1 - 0) mod 2 ^ 32) with 1 in Hc. lia. }
  destruct (decide (V1 c = 0)) as [H0|H0].
  - rewrite decide_True by (by apply Hz).
    destruct (zwalk fuel c V1) as [[r1 V2]|] eqn:E2; cbn [mbind option_bind] in E; [|done].
    destruct (IH c V1 v1 r1 V2 Hrel1 E2 Hhi1) as (v2 & Ev & Hrel2).
    { intros y. apply Hmono with (y := y) in E. pose proof (Hlo y). lia. }
    rewrite Ev. cbn [mbind option_bind]. apply (IHl V2 v2 Hrel2); [|exact E].
    intros y. apply zwalk_mono with (y := y) in E2. pose proof (Hhi1 y). lia.
  - rewrite decide_False by (by rewrite Hz). by apply (IHl V1 v1 Hrel1 Hhi1).
Qed.
End walk.

(* ---- the walk visits a set of nodes described by the counts ---- *)
Section cone.
Context (s : aig) (halt : nat -> bool).
Hypothesis Hnet : network s.

Definition counted (l : list nat) (y : nat) : nat := sum_list (map (fun c => if decide (c = y) then 1%nat else 0%nat) l).
Lemma counted_cons c l y : counted (c :: l) y = ((if decide (c = y) then 1 else 0) + counted l y)%nat.
Proof. reflexivity. Qed.
Lemma fan_edges n l y : aig_fan s n = Some l -> counted l y = edges s y n.
Proof.
  unfold aig_fan, fanins, is_ci, edges. destruct (ks s !! n) as [[a b]|] eqn:E; cbn.
  - case_decide; cbn; [by intros [= <-]|]. unfold gate_refs, count_sig. cbn. destruct (bool_decide_reflect (a = b)) as [->|Hab]; cbn.
    + intros [= <-]. by rewrite decide_True.
    + intros [= <-]. rewrite decide_False by done. unfold counted. cbn. lia.
  - case_decide; cbn; [by intros [= <-]|done].
Qed.
Lemma fan_of n : (n < size s)%nat -> exists l, aig_fan s n = Some l /\ forall c, c ∈ l <-> fanin s n c.
Proof.
  intros Hn. destruct (dag_total _ _ (net_dag s Hnet) n Hn) as [l Hl]. exists l. split; [done|]. intros c.
  rewrite <- (fanin_fan s n c Hn). split; [intros Hc; by exists l|]. intros (l' & Hl' & Hc). congruence.
Qed.
Lemma krefs_cons x E y : krefs s (x :: E) y = (edges s y x + krefs s E y)%nat.
Proof. reflexivity. Qed.
Lemma krefs_app E1 E2 y : krefs s (E1 ++ E2) y = (krefs s E1 y + krefs s E2 y)%nat.
Proof. unfold krefs. by rewrite map_app, sum_list_app. Qed.

Definition stops (n : nat) : option bool := if decide (n < size s)%nat then Some (halt n) else None.

Lemma zwalk_spec stop rank : (forall n, (n < size s)%nat -> stop n = Some (halt n)) ->
  (forall n m, fanin s n m -> (rank m < rank n)%nat) ->
  forall fuel n V, (n < size s)%nat -> (rank n < fuel)%nat ->
  exists V' E, zwalk s stop fuel n V = Some (length E, V') /\ NoDup E /\
    (forall y, V' y = V y - Z.of_nat (krefs s E y)) /\ (forall y, y ∈ E -> rtc (fanin s) n y) /\
    (if halt n then E = [] else n ∈ E) /\
    forall y, y <> n -> (y ∈ E <-> halt y = false /\ 0 < V y /\ V' y <= 0 /\ (y < size s)%nat).
Proof.
  intros Hstop Hrank. induction fuel as [|fuel IH]; intros n V Hn Hf; [lia|]. cbn [zwalk]. rewrite (Hstop n Hn). cbn [mbind option_bind].
  destruct (halt n) eqn:Hh.
  { exists V, []. split; [done|]. split; [constructor|]. split; [intros; unfold krefs; cbn; lia|]. split; [by intros y ?%elem_of_nil|].
    split; [done|]. intros y _. split; [by intros ?%elem_of_nil|lia]. }
  destruct (fan_of n Hn) as (l & Hl & Hlf). rewrite Hl. cbn [mbind option_bind].
  change (exists V' E, foldM (zstep s stop fuel) 1%nat l V = Some (length E, V') /\ NoDup E /\
    (forall y, V' y = V y - Z.of_nat (krefs s E y)) /\ (forall y, y ∈ E -> rtc (fanin s) n y) /\ n ∈ E /\
    forall y, y <> n -> (y ∈ E <-> halt y = false /\ 0 < V y /\ V' y <= 0 /\ (y < size s)%nat)).
  assert (Hloop : forall l V acc, (forall c, c ∈ l -> fanin s n c) ->
    exists V' E, foldM (zstep s stop fuel) acc l V = Some ((acc + length E)%nat, V') /\ NoDup E /\
      (forall y, V' y = V y - Z.of_nat (counted l y) - Z.of_nat (krefs s E y)) /\
      (forall y, y ∈ E -> exists c, fanin s n c /\ rtc (fanin s) c y) /\
      forall y, (y ∈ E <-> halt y = false /\ 0 < V y /\ V' y <= 0 /\ (y < size s)%nat)).
  { clear V l Hl Hlf. induction l as [|c l IHl]; intros V acc Hc.
    { exists V, []. split; [cbn; by rewrite Nat.add_0_r|]. split; [constructor|]. split; [intros; unfold krefs, counted; cbn; lia|].
      split; [by intros y ?%elem_of_nil|]. intros y. split; [by intros ?%elem_of_nil|lia]. }
    rewrite foldM_cons. unfold zstep at 1. assert (Hnc : fanin s n c) by (apply Hc; left).
    pose proof (net_gate s Hnet _ _ Hnc) as Hcs. destruct (lookup_lt_is_Some_2 (ks s) c Hcs) as [kc Hkc]. rewrite Hkc. cbn [mbind option_bind].
    set (V1 := setv V c (V c - 1)).
    assert (HV1 : V1 c = V c - 1) by (unfold V1, setv; by rewrite decide_True).
    assert (HV1' : forall y, y <> c -> V1 y = V y) by (intros y Hy; unfold V1, setv; by rewrite decide_False).
    assert (Hstep : exists r V2 E1, (if decide (V1 c = 0) then '(r, V2) ← zwalk s stop fuel c V1; Some ((acc + r)%nat, V2) else Some (acc, V1)) = Some ((acc + r)%nat, V2) /\
       r = length E1 /\ NoDup E1 /\ (forall y, V2 y = V1 y - Z.of_nat (krefs s E1 y)) /\
       (forall y, y ∈ E1 -> exists c, fanin s n c /\ rtc (fanin s) c y) /\
       forall y, (y ∈ E1 <-> halt y = false /\ 0 < V y /\ V2 y <= 0 /\ (y < size s)%nat)).
    { destruct (decide (V1 c = 0)) as [H0|H0].
      - destruct (IH c V1 Hcs) as (V2 & E1 & E & Hnd & HV2 & Hre & Hr & Hin); [pose proof (Hrank _ _ Hnc); lia|].
        rewrite E. cbn [mbind option_bind]. exists (length E1), V2, E1. split; [done|]. split; [done|]. split; [done|]. split; [done|].
        split; [intros y Hy; exists c; split; [done|by apply Hre]|].
        intros y. destruct (decide (y = c)) as [->|Hy].
        + pose proof (HV2 c). destruct (halt c) eqn:Hhc.
          * subst E1. split; [by intros ?%elem_of_nil|]. by intros [? _].
          * split; [|done]. intros _. split_and!; [done|lia|lia|done].
        + rewrite (Hin y Hy). by rewrite (HV1' y Hy).
      - exists 0%nat, V1, []. rewrite Nat.add_0_r. split; [done|]. split; [done|]. split; [constructor|].
        split; [intros; unfold krefs; cbn; lia|]. split; [by intros y ?%elem_of_nil|].
        intros y. split; [by intros ?%elem_of_nil|]. intros (_ & Hp & Hle & _).
        destruct (decide (y = c)) as [->|Hy]; [lia|]. rewrite (HV1' y Hy) in Hle. lia. }
    destruct Hstep as (r & V2 & E1 & -> & -> & Hnd1 & HV2 & Hre1 & Hin1).
    destruct (IHl V2 (acc + length E1)%nat) as (V3 & E2 & E & Hnd2 & HV3 & Hre2 & Hin2); [intros; apply Hc; by right|].
    exists V3, (E1 ++ E2). split; [rewrite E, app_length; do 2 f_equal; lia|].
    assert (Hm12 : forall y, V2 y <= V y).
    { intros y. rewrite HV2. destruct (decide (y = c)) as [->|Hy]; [lia|]. rewrite (HV1' y Hy). lia. }
    assert (Hm23 : forall y, V3 y <= V2 y) by (intros y; rewrite HV3; lia).
    split; [|split; [|split]].
    - apply NoDup_app. split; [done|]. split; [|done]. intros y Hy1 Hy2. apply Hin1 in Hy1. apply Hin2 in Hy2. lia.
    - intros y. rewrite HV3, HV2, krefs_app, counted_cons. destruct (decide (c = y)) as [->|Hy]; [lia|]. rewrite (HV1' y) by done. lia.
    - intros y Hy. apply elem_of_app in Hy as [Hy|Hy]; eauto.
    - intros y. rewrite elem_of_app, Hin1, Hin2. pose proof (Hm12 y). pose proof (Hm23 y).
      split; [intros [?|?]; split_and!; try tauto; lia|]. intros (? & ? & ? & ?).
      destruct (decide (V2 y <= 0)); [left|right]; split_and!; done || lia. }
  destruct (Hloop l V 1%nat) as (V' & E & EE & Hnd & HV & Hre & Hin); [intros c; apply Hlf|].
  exists V', (n :: E). split; [exact EE|].
  assert (Hnn : n ∉ E).
  { intros Hin'. destruct (Hre n Hin') as (c & Hc & Hrt). pose proof (Hrank _ _ Hc).
    assert (rank n <= rank c)%nat; [|lia]. clear -Hrt Hrank. induction Hrt as [|x y z Hxy _ IH]; [done|]. pose proof (Hrank _ _ Hxy). lia. }
  split; [by constructor|]. split; [|split; [|split; [left|]]].
  - intros y. rewrite HV, krefs_cons, (fan_edges n l y Hl). lia.
  - intros y Hy. apply elem_of_cons in Hy as [->|Hy]; [done|]. destruct (Hre y Hy) as (c & Hc & Hrt). by eapply rtc_l.
  - intros y Hy. rewrite elem_of_cons. rewrite Hin. tauto.
Qed.

Lemma sum_list_perm l1 l2 : l1 ≡ₚ l2 -> sum_list l1 = sum_list l2.
Proof. induction 1; cbn; lia. Qed.
Lemma edges_fanin y x : edges s y x <> 0%nat <-> fanin s x y.
Proof.
  unfold edges, fanin. destruct (ks s !! x) as [[a b]|] eqn:E.
  - case_decide as H0; [subst; split; [done|by intros (? & ? & _ & ? & _)]|]. unfold gate_refs. cbn. case_decide as Hab.
    + subst. split; [done|]. intros (a' & b' & E' & _ & Hab & _). congruence.
    + unfold count_sig. split.
      * intros H. exists a, b. split; [done|]. split; [done|]. split; [done|]. repeat case_decide; auto. lia.
      * intros (a' & b' & E' & _ & _ & Hy). injection E' as <- <-. repeat case_decide; try lia; destruct Hy; congruence.
  - split; [done|]. by intros (? & ? & ? & _).
Qed.
Lemma krefs_filter E y (P : nat -> Prop) `{!forall x, Decision (P x)} : (forall x, fanin s x y -> P x) ->
  krefs s E y = krefs s (filter P E) y.
Proof.
  intros HP. induction E as [|x E IH]; [done|]. rewrite krefs_cons, filter_cons. case_decide as Hx.
  - rewrite krefs_cons. lia.
  - rewrite IH. destruct (edges s y x) eqn:Ee; [done|]. destruct Hx. apply HP. apply edges_fanin. lia.
Qed.
Lemma krefs_perm E1 E2 y : E1 ≡ₚ E2 -> krefs s E1 y = krefs s E2 y.
Proof. intros H. unfold krefs. apply sum_list_perm. by apply Permutation_map. Qed.
Lemma krefs_agree rank E1 E2 y : (forall n m, fanin s n m -> (rank m < rank n)%nat) -> NoDup E1 -> NoDup E2 ->
  (forall x, (rank y < rank x)%nat -> (x ∈ E1 <-> x ∈ E2)) -> krefs s E1 y = krefs s E2 y.
Proof.
  intros Hrank H1 H2 H. rewrite (krefs_filter E1 y (fun x => (rank y < rank x)%nat)), (krefs_filter E2 y (fun x => (rank y < rank x)%nat))
    by (intros x; apply Hrank).
  apply krefs_perm, NoDup_Permutation; [by apply NoDup_filter..|]. intros x. rewrite !elem_of_list_filter.
  split; intros [Hx Hin]; (split; [done|]); by apply (H x Hx).
Qed.

(* walking back visits the same nodes *)
Lemma walk_back n E1 E2 (V : nat -> Z) : NoDup E1 -> NoDup E2 -> n ∈ E1 -> n ∈ E2 ->
  (forall y, y <> n -> (y ∈ E1 <-> halt y = false /\ 0 < V y /\ V y - Z.of_nat (krefs s E1 y) <= 0 /\ (y < size s)%nat)) ->
  (forall y, y <> n -> (y ∈ E2 <-> halt y = false /\ 0 < 1 - (V y - Z.of_nat (krefs s E1 y)) /\
     1 - (V y - Z.of_nat (krefs s E1 y)) - Z.of_nat (krefs s E2 y) <= 0 /\ (y < size s)%nat)) ->
  E1 ≡ₚ E2.
Proof.
  intros Hd1 Hd2 Hn1 Hn2 H1 H2. destruct (net_rank s Hnet) as (rank & Hrank & Hb).
  apply NoDup_Permutation; [done|done|].
  assert (H : forall k y, (size s - rank y <= k)%nat -> (y ∈ E1 <-> y ∈ E2)).
  { induction k as [|k IH]; intros y Hk.
    - assert (Hk1 : forall x, (rank y < rank x)%nat -> (x ∈ E1 <-> x ∈ E2)) by (intros x; pose proof (Hb x); lia).
      pose proof (krefs_agree rank E1 E2 y Hrank Hd1 Hd2 Hk1) as Hkr.
      destruct (decide (y = n)) as [->|Hy]; [done|]. rewrite (H1 y Hy), (H2 y Hy), <- Hkr.
      split; intros (? & ? & ? & ?); split_and!; done || lia.
    - assert (Hk1 : forall x, (rank y < rank x)%nat -> (x ∈ E1 <-> x ∈ E2)) by (intros x Hx; apply IH; pose proof (Hb x); lia).
      pose proof (krefs_agree rank E1 E2 y Hrank Hd1 Hd2 Hk1) as Hkr.
      destruct (decide (y = n)) as [->|Hy]; [done|]. rewrite (H1 y Hy), (H2 y Hy), <- Hkr.
      split; intros (? & ? & ? & ?); split_and!; done || lia. }
  intros y. by apply (H (size s)); lia.
Qed.

Lemma edges_le y x : (edges s y x <= 2)%nat.
Proof. unfold edges, gate_refs, count_sig. repeat (case_decide || case_match); lia. Qed.
Lemma krefs_bound E y : NoDup E -> (forall x, x ∈ E -> (x < size s)%nat) -> (krefs s E y <= 2 * size s)%nat.
Proof.
  intros Hd Hin.
  assert (Hl : (length E <= size s)%nat).
  { rewrite <- (seq_length (size s) 0). apply submseteq_length, NoDup_submseteq; [done|].
    intros x Hx. apply elem_of_seq. pose proof (Hin x Hx). lia. }
  assert (krefs s E y <= 2 * length E)%nat; [|lia].
  clear. induction E as [|x E IH]; [done|]. rewrite krefs_cons. cbn. pose proof (edges_le y x). lia.
Qed.

Lemma rtc_size n y : (n < size s)%nat -> rtc (fanin s) n y -> (y < size s)%nat.
Proof. intros Hn H. apply rtc_inv_r in H as [<-|(z & _ & Hz)]; [done|]. by apply (net_gate s Hnet _ _ Hz). Qed.

Lemma rel_eq (V : nat -> Z) (v v' : values) : rel V v -> rel V v' -> forall y, v y = v' y.
Proof. intros H H' y. pose proof (H y). pose proof (H' y). lia. Qed.

Context (stop : nat -> option bool) (Hstop : forall n, (n < size s)%nat -> stop n = Some (halt n)).

Lemma deref_spec n (v : values) : (n < size s)%nat -> Z.of_nat (size s) < 2 ^ 30 -> (forall y, (v y < 2 ^ 32)%N) ->
  exists E v', deref s stop (S (size s)) n v = Some (length E, v') /\ rel (fun y => Z.of_N (v y) - Z.of_nat (krefs s E y)) v' /\
    NoDup E /\ (if halt n then E = [] else n ∈ E) /\ (forall y, y ∈ E -> rtc (fanin s) n y) /\
    forall y, y <> n -> (y ∈ E <-> halt y = false /\ 0 < Z.of_N (v y) <= Z.of_nat (krefs s E y) /\ (y < size s)%nat).
Proof.
  intros Hn Hb Hv. destruct (net_rank s Hnet) as (rank & Hrank & Hrb).
  destruct (zwalk_spec stop rank Hstop Hrank (S (size s)) n (fun y => Z.of_N (v y)) Hn) as (V' & E & EE & Hd & HV & Hre & Hr & Hin);
    [pose proof (Hrb n); lia|].
  assert (Hkb : forall y, (krefs s E y <= 2 * size s)%nat).
  { intros y. apply krefs_bound; [done|]. intros x Hx. apply (rtc_size n); [done|by apply Hre]. }
  destruct (sim_deref s stop (S (size s)) n (fun y => Z.of_N (v y)) v (length E) V') as (v' & Ev & Hrel).
  - intros y. pose proof (Hv y). rewrite Z.mod_small; lia.
  - done.
  - intros y. pose proof (Hv y). lia.
  - intros y. rewrite HV. pose proof (Hkb y). lia.
  - exists E, v'. split; [done|]. split; [|split; [done|split; [done|split; [done|]]]].
    + intros y. rewrite (Hrel y), HV. done.
    + intros y Hy. rewrite (Hin y Hy), HV. split; intros (? & ? & ?); split_and!; done || lia.
Qed.

(* dereferencing and then referencing, for counts that may be any integers *)
Lemma round_trip n (V : nat -> Z) : (n < size s)%nat ->
  exists (E : list nat) V1 (E' : list nat) V2, zwalk s stop (S (size s)) n V = Some (length E, V1) /\
    zwalk s stop (S (size s)) n (fun y => 1 - V1 y) = Some (length E', V2) /\ length E = length E' /\
    (forall y, V2 y = 1 - V y) /\ (forall y, V1 y = V y - Z.of_nat (krefs s E y)) /\ (forall y, (krefs s E y <= 2 * size s)%nat).
Proof.
  intros Hn. destruct (net_rank s Hnet) as (rank & Hrank & Hrb).
  destruct (zwalk_spec stop rank Hstop Hrank (S (size s)) n V Hn) as (V1 & E & EE & Hd & HV & Hre & Hr & Hin);
    [pose proof (Hrb n); lia|].
  destruct (zwalk_spec stop rank Hstop Hrank (S (size s)) n (fun y => 1 - V1 y) Hn) as (V2 & E' & EE' & Hd' & HV' & Hre' & Hr' & Hin');
    [pose proof (Hrb n); lia|].
  exists E, V1, E', V2. split; [done|]. split; [done|].
  assert (Hp : E ≡ₚ E').
  { destruct (halt n); [by subst|]. apply (walk_back n E E' V); [done|done|done|done| |].
    - intros y Hy. rewrite (Hin y Hy), HV. done.
    - intros y Hy. rewrite (Hin' y Hy), HV', HV. done. }
  split; [by apply Permutation_length|]. split; [|split; [done|]].
  - intros y. rewrite HV', HV, (krefs_perm _ _ y Hp). lia.
  - intros y. apply krefs_bound; [done|]. intros x Hx. apply (rtc_size n); [done|by apply Hre].
Qed.

Lemma deref_ref n (v : values) : (n < size s)%nat -> Z.of_nat (size s) < 2 ^ 30 -> (forall y, (v y < 2 ^ 32)%N) ->
  exists r v1 v2, deref s stop (S (size s)) n v = Some (r, v1) /\ ref s stop (S (size s)) n v1 = Some (r, v2) /\ forall y, v2 y = v y.
Proof.
  intros Hn Hb Hv. destruct (round_trip n (fun y => Z.of_N (v y)) Hn) as (E & V1 & E' & V2 & E1 & E2 & Hl & HV2 & HV1 & Hk).
  destruct (sim_deref s stop (S (size s)) n (fun y => Z.of_N (v y)) v (length E) V1) as (v1 & Ev1 & Hr1); [|exact E1|..].
  { intros y. pose proof (Hv y). rewrite Z.mod_small; lia. }
  { intros y. pose proof (Hv y). lia. }
  { intros y. rewrite HV1. pose proof (Hk y). lia. }
  destruct (sim_ref s stop (S (size s)) n (fun y => 1 - V1 y) v1 (length E') V2) as (v2 & Ev2 & Hr2); [|exact E2|..].
  { intros y. cbn beta. rewrite (Hr1 y). f_equal. lia. }
  { intros y. cbn beta. rewrite HV1. pose proof (Hk y). lia. }
  { intros y. rewrite HV2. pose proof (Hv y). lia. }
  exists (length E), v1, v2. split; [done|]. split; [by rewrite Hl|]. intros y. pose proof (Hr2 y) as H. cbn beta in H. rewrite HV2 in H.
  pose proof (Hv y). replace (1 - (1 - Z.of_N (v y))) with (Z.of_N (v y)) in H by lia. rewrite Z.mod_small in H; lia.
Qed.

Lemma ref_deref n (v : values) : (n < size s)%nat -> Z.of_nat (size s) < 2 ^ 30 -> (forall y, (v y < 2 ^ 32)%N) ->
  exists r v1 v2, ref s stop (S (size s)) n v = Some (r, v1) /\ deref s stop (S (size s)) n v1 = Some (r, v2) /\ forall y, v2 y = v y.
Proof.
  (* the values may pass 2^32: take them relative to zero where they are large *)
  intros Hn Hb Hv.
  set (U := fun y => if decide (Z.of_N (v y) < 2 ^ 31) then Z.of_N (v y) else Z.of_N (v y) - 2 ^ 32).
  assert (HU : forall y, U y mod 2 ^ 32 = Z.of_N (v y)).
  { intros y. unfold U. pose proof (Hv y). case_decide; [rewrite Z.mod_small; lia|].
    rewrite <- (Z_mod_plus_full _ 1). rewrite Z.mod_small; lia. }
  assert (HUb : forall y, - 2 ^ 31 <= U y < 2 ^ 31) by (intros y; unfold U; pose proof (Hv y); case_decide; lia).
  destruct (round_trip n (fun y => 1 - U y) Hn) as (E & V1 & E' & V2 & E1 & E2 & Hl & HV2 & HV1 & Hk).
  destruct (sim_ref s stop (S (size s)) n (fun y => 1 - U y) v (length E) V1) as (v1 & Ev1 & Hr1); [|exact E1|..].
  { intros y. cbn beta. rewrite <- HU. f_equal. lia. }
  { intros y. cbn beta. pose proof (HUb y). lia. }
  { intros y. rewrite HV1. pose proof (Hk y). pose proof (HUb y). lia. }
  destruct (sim_deref s stop (S (size s)) n (fun y => 1 - V1 y) v1 (length E') V2) as (v2 & Ev2 & Hr2); [|exact E2|..].
  { intros y. cbn beta. rewrite (Hr1 y). done. }
  { intros y. cbn beta. rewrite HV1. pose proof (Hk y). pose proof (HUb y). lia. }
  { intros y. rewrite HV2. pose proof (HUb y). lia. }
  exists (length E), v1, v2. split; [done|]. split; [by rewrite Hl|]. intros y. pose proof (Hr2 y) as H. rewrite HV2 in H.
  replace (1 - (1 - U y)) with (U y) in H by lia. rewrite HU in H. lia.
Qed.

(* ---- with the reference counts of the network the cone is fanout-free ---- *)
Lemma sum_list_zero (f : nat -> nat) l : sum_list (map f l) = 0%nat <-> forall x, x ∈ l -> f x = 0%nat.
Proof.
  induction l as [|a l IH]; cbn; [split; [by intros _ x ?%elem_of_nil|done]|]. split.
  - intros H x Hx. apply elem_of_cons in Hx as [->|Hx]; [lia|]. apply IH; [lia|done].
  - intros H. rewrite (H a) by left. cbn. apply IH. intros x Hx. apply H. by right.
Qed.
Lemma references_krefs y : references s y = (krefs s (seq 0 (size s)) y + sum_list (map (count_sig y) (outs s)))%nat.
Proof.
  unfold references, krefs, size. f_equal.
  assert (H : forall l k, sum_list (map (gate_refs y) l) = sum_list (map (fun i => match l !! (i - k)%nat with Some x => gate_refs y x | None => 0%nat end) (seq k (length l)))).
  { induction l as [|x l IH]; intros k; [done|]. cbn [length seq map sum_list]. rewrite Nat.sub_diag. cbn. f_equal.
    rewrite (IH (S k)). f_equal. apply map_ext_in. intros i Hi. apply in_seq in Hi. replace (i - k)%nat with (S (i - S k))%nat by lia. done. }
  rewrite (H (ks s) 0%nat). f_equal. apply map_ext_in. intros i Hi. rewrite Nat.sub_0_r. unfold edges.
  destruct (ks s !! i) as [k|] eqn:E; [|done]. case_decide as H0; [|done]. subst. rewrite (net_const s Hnet) in E. injection E as <-.
  unfold gate_refs. by rewrite decide_True.
Qed.
Lemma inside_le E y : NoDup E -> (forall x, x ∈ E -> (x < size s)%nat) ->
  ((references s y <= krefs s E y)%nat <-> (forall x, fanin s x y -> x ∈ E) /\ (forall f, f ∈ outs s -> sidx f <> y)).
Proof.
  intros Hd Hin. rewrite references_krefs.
  assert (Hp : seq 0 (size s) ≡ₚ E ++ filter (fun x => x ∉ E) (seq 0 (size s))).
  { apply NoDup_Permutation; [apply NoDup_seq| |].
    - apply NoDup_app. split; [done|]. split; [|apply NoDup_filter, NoDup_seq]. intros x Hx Hx'. by apply elem_of_list_filter in Hx' as [? _].
    - intros x. rewrite elem_of_app, elem_of_list_filter. split; [|intros [Hx|[_ Hx]]; [apply elem_of_seq; pose proof (Hin x Hx); lia|done]].
      intros Hx. destruct (decide (x ∈ E)); [by left|by right]. }
  rewrite (krefs_perm _ _ y Hp), krefs_app.
  assert (Hout : sum_list (map (count_sig y) (outs s)) = 0%nat <-> forall f, f ∈ outs s -> sidx f <> y).
  { induction (outs s) as [|f l IH]; cbn; [split; [by intros _ x ?%elem_of_nil|done]|]. unfold count_sig at 1. case_decide as Hf; split.
    - lia.
    - intros H. by destruct (H f ltac:(left)).
    - intros H g Hg. apply elem_of_cons in Hg as [->|Hg]; [done|]. by apply (proj1 IH).
    - intros H. apply IH. intros g Hg. apply H. by right. }
  assert (Hrest : krefs s (filter (fun x => x ∉ E) (seq 0 (size s))) y = 0%nat <-> forall x, fanin s x y -> x ∈ E).
  { unfold krefs. rewrite sum_list_zero. split.
    - intros H x Hx. destruct (decide (x ∈ E)) as [|Hx']; [done|]. apply edges_fanin in Hx as Hx2. destruct Hx2. apply H.
      apply elem_of_list_filter. split; [done|]. apply elem_of_seq. pose proof (fanin_lt s x y Hx). lia.
    - intros H x Hx. apply elem_of_list_filter in Hx as [Hx _]. destruct (edges s y x) eqn:Ee; [done|]. destruct Hx. apply H, edges_fanin. lia. }
  rewrite <- Hrest, <- Hout. lia.
Qed.
Lemma all_inside E y : NoDup E -> (forall x, x ∈ E -> (x < size s)%nat) ->
  ((0 < references s y <= krefs s E y)%nat <->
   (exists x, fanin s x y) /\ (forall x, fanin s x y -> x ∈ E) /\ (forall f, f ∈ outs s -> sidx f <> y)).
Proof.
  intros Hd Hin. rewrite <- (inside_le E y Hd Hin).
  assert (Hpos : krefs s E y <> 0%nat -> exists x, fanin s x y).
  { intros H. destruct (decide (Exists (fun x => edges s y x <> 0%nat) E)) as [Hx|Hx].
    - apply Exists_exists in Hx as (x & _ & Hx). exists x. by apply edges_fanin.
    - destruct H. apply sum_list_zero. intros x Hx'. destruct (edges s y x) eqn:Ee; [done|]. destruct Hx. apply Exists_exists. exists x. split; [done|lia]. }
  split.
  - intros [H1 H2]. split; [apply Hpos; lia|lia].
  - intros ([x Hx] & Hr). split; [|done]. apply (inside_le E y Hd Hin) in Hr as Hr'. destruct Hr' as [Hr' _].
    assert (krefs s E y <> 0%nat).
    { unfold krefs. rewrite sum_list_zero. intros H. apply edges_fanin in Hx as Hx'. apply Hx', H. by apply Hr'. }
    destruct (decide (references s y = 0%nat)) as [H0|]; [|lia]. rewrite references_krefs in H0.
    assert (Hk : krefs s (seq 0 (size s)) y = 0%nat) by lia. unfold krefs in Hk. rewrite sum_list_zero in Hk.
    apply edges_fanin in Hx as Hx'. destruct Hx'. apply Hk, elem_of_seq. pose proof (fanin_lt s x y Hx). lia.
Qed.

Lemma deref_ffc n (v : values) : (n < size s)%nat -> Z.of_nat (size s) < 2 ^ 30 -> halt n = false ->
  (forall y, v y = N.of_nat (references s y)) -> (forall y, (v y < 2 ^ 32)%N) ->
  exists E v', deref s stop (S (size s)) n v = Some (length E, v') /\ ffc s halt n E /\ (forall x, x ∈ E -> (x < size s)%nat) /\
    forall y, (y ∈ E -> y <> n -> v' y = 0%N) /\ v' y = N.of_nat (references s y - krefs s E y).
Proof.
  intros Hn Hb Hh Hrv Hv. destruct (deref_spec n v Hn Hb Hv) as (E & v' & EE & Hrel & Hd & Hr & Hre & Hin).
  rewrite Hh in Hr.
  assert (Hlt : forall x, x ∈ E -> (x < size s)%nat) by (intros x Hx; apply (rtc_size n); [done|by apply Hre]).
  assert (Hle : forall y, (krefs s E y <= references s y)%nat).
  { intros y. rewrite references_krefs.
    assert (Hsub : E ⊆+ seq 0 (size s)).
    { apply NoDup_submseteq; [done|]. intros x Hx. apply elem_of_seq. pose proof (Hlt x Hx). lia. }
    apply submseteq_Permutation in Hsub as [l Hp]. rewrite (krefs_perm _ _ y Hp), krefs_app. lia. }
  assert (Hv' : forall y, v' y = N.of_nat (references s y - krefs s E y)).
  { intros y. pose proof (Hrel y) as H. cbn beta in H. pose proof (Hv y). rewrite Hrv in *. pose proof (Hle y). rewrite Z.mod_small in H; lia. }
  exists E, v'. split; [done|]. split; [|split; [done|]].
  - split; [done|done|]. intros y Hy. rewrite (Hin y Hy), Hrv. rewrite <- (all_inside E y Hd Hlt). split.
    + intros (? & ? & ?). split; [done|lia].
    + intros (? & ? & ?). split; [done|]. split; [lia|].
      destruct (decide (y < size s)%nat) as [|Hge]; [done|].
      assert (krefs s E y = 0%nat); [|lia]. apply sum_list_zero. intros x Hx. destruct (edges s y x) eqn:Ee; [done|].
      assert (fanin s x y) as Hf by (apply edges_fanin; lia). by apply (net_gate s Hnet) in Hf.
  - intros y. split; [|apply Hv']. intros Hy Hyn. rewrite Hv'. apply (Hin y Hyn) in Hy as (_ & Hy & _). rewrite Hrv in Hy. lia.
Qed.
End cone.

(* ---- growth of the network and extensionality ---- *)
Section more.
Context (stop : nat -> option bool).

Lemma fan_prefix s s' n : (exists t, ks s' = ks s ++ t) -> (n < size s)%nat -> aig_fan s' n = aig_fan s n.
Proof.
  intros [t Ht] Hn. unfold aig_fan, fanins, is_ci. destruct (lookup_lt_is_Some_2 (ks s) n Hn) as [k Hk].
  rewrite Ht, (lookup_app_l_Some _ _ _ _ Hk), Hk. done.
Qed.

Lemma ref_weaken s s' : network s -> (exists t, ks s' = ks s ++ t) ->
  forall f f' n v r, (f <= f')%nat -> (n < size s)%nat -> ref s stop f n v = Some r -> ref s' stop f' n v = Some r.
Proof.
  intros Hnet Hp. induction f as [|f IH]; intros f' n v r Hf Hn E; [done|]. destruct f' as [|f']; [lia|].
  cbn [ref] in E |- *. destruct (stop n) as [[]|]; cbn [mbind option_bind] in E |- *; [done| |done].
  rewrite (fan_prefix s s' n Hp Hn). destruct (fan_of s Hnet n Hn) as (l & Hl & Hlf). rewrite Hl in E |- *. cbn [mbind option_bind] in E |- *.
  assert (Hc : forall c, c ∈ l -> (c < size s)%nat) by (intros c Hc; apply Hlf in Hc; by apply (net_gate s Hnet) in Hc).
  clear Hl Hlf. revert E. generalize 1%nat as acc. revert v. induction l as [|c l IHl]; intros v acc E; [done|].
  rewrite foldM_cons in E. rewrite foldM_cons.
  destruct (lookup_lt_is_Some_2 (ks s) c ltac:(apply Hc; left)) as [k Hk]. destruct Hp as [t Ht].
  rewrite Hk in E. rewrite Ht, (lookup_app_l_Some _ _ _ _ Hk). cbn [mbind option_bind] in E |- *.
  case_decide.
  - destruct (ref s stop f c _) as [[r1 v2]|] eqn:E2; cbn [mbind option_bind] in E; [|done].
    rewrite (IH f' c _ _ ltac:(lia) ltac:(apply Hc; left) E2). cbn [mbind option_bind].
    rewrite <- Ht. apply IHl; [|done]. intros c' Hc'. apply Hc. by right.
  - rewrite <- Ht. apply IHl; [|done]. intros c' Hc'. apply Hc. by right.
Qed.

Lemma ref_pw s f n v w r v' : (forall y, v y = w y) -> ref s stop f n v = Some (r, v') ->
  exists w', ref s stop f n w = Some (r, w') /\ forall y, v' y = w' y.
Proof.
  revert n v w r v'. induction f as [|f IH]; intros n v w r v' Hvw E; [done|].
  cbn [ref] in E |- *. destruct (stop n) as [[]|]; cbn [mbind option_bind] in E |- *; [injection E as <- <-; eauto| |done].
  destruct (aig_fan s n) as [l|]; cbn [mbind option_bind] in E |- *; [|done].
  revert E. generalize 1%nat as acc. revert v w Hvw. induction l as [|c l IHl]; intros v w Hvw acc E.
  { cbn in E. injection E as <- <-. exists w. split; [reflexivity|done]. }
  rewrite foldM_cons in E. rewrite foldM_cons. destruct (ks s !! c); cbn [mbind option_bind] in E |- *; [|done].
  assert (Hpw : forall y, setv v c (u32 (v c + 1)) y = setv w c (u32 (w c + 1)) y).
  { intros y. unfold setv. rewrite (Hvw c), (Hvw y). done. }
  rewrite <- (Hpw c). destruct (decide (setv v c (u32 (v c + 1)) c = 1%N)).
  - destruct (ref s stop f c (setv v c (u32 (v c + 1)))) as [[r1 v2]|] eqn:E2; cbn [mbind option_bind] in E; [|done].
    destruct (IH c _ _ _ _ Hpw E2) as (w2 & Ew & Hw2). rewrite Ew. cbn [mbind option_bind]. by eapply IHl.
  - by eapply IHl.
Qed.
End more.

(* the fanout-free cone is unique *)
Lemma ffc_unique s halt n E1 E2 : network s -> ffc s halt n E1 -> ffc s halt n E2 -> E1 ≡ₚ E2.
Proof.
  intros Hnet [Hd1 Hr1 H1] [Hd2 Hr2 H2]. destruct (net_rank s Hnet) as (rank & Hrank & Hb).
  apply NoDup_Permutation; [done|done|].
  assert (H : forall k y, (size s - rank y < k)%nat -> (y ∈ E1 <-> y ∈ E2)).
  { induction k as [|k IH]; intros y Hk; [lia|]. destruct (decide (y = n)) as [->|Hy]; [done|].
    rewrite (H1 y Hy), (H2 y Hy).
    assert (Hx : forall x, fanin s x y -> (x ∈ E1 <-> x ∈ E2)).
    { intros x Hx. apply IH. pose proof (Hrank _ _ Hx). pose proof (Hb x). lia. }
    split; intros (? & ? & Ha & ?); (split_and!; [done|done| |done]); intros x Hx'; apply (Hx x Hx'); by apply Ha. }
  intros y. by apply (H (S (size s))); lia.
Qed.
