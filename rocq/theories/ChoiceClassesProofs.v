From Coq Require Import Arith.Factorial.
From stdpp Require Import sorting.
From Verif Require Import Base Aig AigSem AigHash AigProofs AigApi AigReach NetProofs Cnf CnfProofs Choice ChoiceSat ChoiceSatProofs
  ChoiceCompute ChoiceComputeProofs ChoiceClasses.

(* ---- Abc_PrimeCudd ---- *)
Lemma has_divisor_spec fuel i p : Nat.odd i = true -> 1 < i -> 0 < fuel -> p < i + fuel ->
  exists b, has_divisor fuel i p = Some b /\
    (if b then exists j, 1 < j /\ j < p /\ Nat.divide j p else forall j, i <= j -> Nat.odd j = true -> j * j <= p -> ~ Nat.divide j p).
Proof.
  revert i. induction fuel as [|fuel IH]; intros i Ho Hi H0 Hf; cbn [has_divisor]; [lia|].
  case_decide as Hp.
  - case_decide as Hd.
    + exists true. split; [done|]. exists i. split; [done|]. split; [nia|]. apply Nat.mod_divide; [lia|done].
    + destruct (IH (i + 2)) as (b & E & H); [by rewrite Nat.odd_add, Ho|lia|nia|lia|]. exists b. split; [done|].
      destruct b; [done|]. intros j Hj Hoj Hjp. destruct (decide (j = i)) as [->|Hne]; [by rewrite <- Nat.mod_divide by lia|].
      destruct (decide (j = i + 1)) as [->|Hne']; [by rewrite Nat.odd_add, Ho in Hoj|]. apply H; [lia|done|done].
  - exists false. split; [done|]. intros j Hj _ Hjp. nia.
Qed.
Definition good (q : nat) : Prop := q = 1 \/ (is_prime q /\ q <> 2).
Lemma odd_divisor m j : Nat.odd m = true -> Nat.divide j m -> Nat.odd j = true.
Proof. intros Ho [k ->]. rewrite Nat.odd_mul in Ho. by apply andb_true_iff in Ho as [_ ?]. Qed.
Lemma check_good p : Nat.odd p = true -> exists b, has_divisor (S p) 3 p = Some b /\ (b = false <-> good p).
Proof.
  intros Ho. destruct (has_divisor_spec (S p) 3 p) as (b & E & H); [done|lia|lia|lia|]. exists b. split; [done|]. destruct b.
  - split; [done|]. intros [->|[[_ Hp] _]]; destruct H as (j & H1 & H2 & H3); [lia|]. by destruct (Hp j).
  - split; [|done]. intros _. destruct (decide (p = 1)) as [->|Hp]; [by left|]. right.
    assert (p <> 0) by (by intros ->). split; [|by intros ->]. split; [lia|]. intros i Hi Hip [k Hk].
    assert (1 < k) by (destruct k as [|[|k]]; lia).
    set (j := Nat.min i k). assert (Hj : Nat.divide j p).
    { unfold j. destruct (Nat.min_spec i k) as [[_ ->]|[_ ->]]; [by exists k|exists i; lia]. }
    pose proof (odd_divisor p j Ho Hj) as Hoj. apply (H j); [|done| |done].
    + assert (1 < j) by (unfold j; lia). destruct (decide (j = 2)) as [E2|]; [by rewrite E2 in Hoj|lia].
    + unfold j. nia.
Qed.
Lemma good_odd q : good q -> Nat.odd q = true.
Proof.
  intros [->|[[H1 H2] Hn]]; [done|]. destruct (Nat.odd q) eqn:E; [done|exfalso].
  rewrite <- Nat.negb_even in E. apply negb_false_iff in E. apply Nat.even_spec in E as [k ->].
  apply (H2 2); [lia|lia|]. exists k. lia.
Qed.
Lemma prime_loop_spec fuel p q : good q -> p <= q -> q < p + fuel ->
  exists r, prime_loop fuel p = Some r /\ p <= r /\ good r /\ forall m, p <= m -> good m -> r <= m.
Proof.
  revert p. induction fuel as [|fuel IH]; intros p Hq Hpq Hf; cbn [prime_loop]; [lia|].
  destruct (Nat.odd p) eqn:Eo.
  - destruct (check_good p Eo) as (b & -> & Hb). cbn [mbind option_bind]. destruct b.
    + assert (Hn : p <> q). { intros ->. apply Hb in Hq. done. }
      destruct (IH (S p)) as (r & E & H1 & H2 & H3); [done|lia|lia|]. exists r. split; [done|]. split; [lia|]. split; [done|].
      intros m Hm Hg. apply H3; [|done]. destruct (decide (m = p)) as [->|]; [apply Hb in Hg; done|lia].
    + exists p. split; [done|]. split; [done|]. split; [by apply Hb|done].
  - assert (Hn : forall m, good m -> m <> p). { intros m Hg%good_odd ->. congruence. }
    destruct (IH (S p)) as (r & E & H1 & H2 & H3); [done|specialize (Hn _ Hq); lia|lia|]. exists r. split; [done|]. split; [lia|]. split; [done|].
    intros m Hm Hg. apply H3; [|done]. specialize (Hn m Hg). lia.
Qed.
Lemma prime_divisor m : 1 < m -> exists q, is_prime q /\ Nat.divide q m.
Proof.
  induction (lt_wf m) as [m _ IH]. intros Hm.
  destruct (decide (Exists (fun i => m mod i = 0) (seq 2 (m - 2)))) as [He|Hn].
  - apply Exists_exists in He as (i & Hi & Hd). apply elem_of_seq in Hi.
    destruct (IH i) as (q & Hq & Hqi); [lia|lia|]. exists q. split; [done|]. apply (Nat.divide_trans _ i); [done|]. apply Nat.mod_divide; [lia|done].
  - exists m. split; [|by exists 1; lia]. split; [done|]. intros i H1 H2 Hd. apply Hn. apply Exists_exists. exists i.
    split; [apply elem_of_seq; lia|]. apply Nat.mod_divide; [lia|done].
Qed.
Lemma fact_divide p q : 0 < q -> q <= p -> Nat.divide q (fact p).
Proof.
  induction p as [|p IH]; intros H0 Hq; [lia|]. cbn [fact]. destruct (decide (q = S p)) as [->|Hn].
  - exists (fact p). lia.
  - apply (Nat.divide_add_r q (fact p) (p * fact p)); [apply IH; lia|]. apply Nat.divide_mul_r, IH; lia.
Qed.
Lemma prime_above p : 2 <= p -> exists q, is_prime q /\ p < q /\ q <= fact p + 1.
Proof.
  intros Hp. pose proof (lt_O_fact p). destruct (prime_divisor (fact p + 1)) as (q & Hq & Hd); [lia|]. exists q. split; [done|]. split.
  - destruct (decide (p < q)) as [|Hlt]; [done|exfalso]. destruct Hq as [Hq _].
    assert (Nat.divide q 1) as [k Hk]; [|destruct k as [|k]; lia]. apply (Nat.divide_add_cancel_r q (fact p) 1); [apply fact_divide; lia|done].
  - apply Nat.divide_pos_le; [lia|done].
Qed.
Lemma prime_cudd_spec p : exists r, prime_cudd p = Some r /\ p <= r /\ good r /\ forall m, p <= m -> good m -> r <= m.
Proof.
  unfold prime_cudd. destruct (decide (2 <= p)) as [Hp|Hp].
  - destruct (prime_above p Hp) as (q & Hq & H1 & H2). apply (prime_loop_spec _ p q); [|lia|lia]. right. split; [done|lia].
  - apply (prime_loop_spec _ p 1); [by left|lia|]. destruct p as [|[|p]]; cbn; lia.
Qed.
Lemma good_pos q : good q -> 0 < q.
Proof. intros [->|[[H _] _]]; lia. Qed.
