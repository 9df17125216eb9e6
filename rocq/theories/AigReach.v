(* The creation calls, with the fact that they lead to reachable networks. *)
From Verif Require Import Base Aig AigSem AigHash AigProofs AigApi.

Lemma reach_wp {A} (o : op) (m : M aig A) s Q :
  reachable s -> Forall (valid s) (operands o) ->
  (forall r s', m s = Some (r, s') -> exists r', step o s = Some (r', s')) ->
  wp m s Q -> wp m s (fun r s' => reachable s' /\ Q r s').
Proof.
  intros Hr Ho Hs H. apply wp_elim in H as (r & s' & E & HQ). unfold wp. rewrite E. split; [|done].
  destruct (Hs r s' E) as [r' E']. by econstructor.
Qed.

(* [builds] for reachable networks *)
Definition makes (s : aig) (val : (nat -> bool) -> bool) (f : signal) (s' : aig) : Prop :=
  reachable s' /\ ext s s' /\ valid s' f /\ forall env, sval (ev s' env) f = val env.

Lemma builds_makes s val f s' : reachable s' -> builds s val f s' -> makes s val f s'.
Proof. by intros ? (? & ? & ? & ?). Qed.
Lemma makes_ext s s1 s' val f : ext s s1 -> makes s1 val f s' -> makes s val f s'.
Proof. intros He (? & He' & ? & ?). split; [done|]. split; [by eapply ext_trans|done]. Qed.

Lemma create_and_r s a b : reachable s -> valid s a -> valid s b ->
  wp (create_and a b) s (makes s (fun env => sval (ev s env) a && sval (ev s env) b)).
Proof.
  intros Hr Ha Hb. eapply wp_mono; [eapply (reach_wp (OpAnd a b)); [done| | |]|].
  - by repeat constructor.
  - intros r s' E. by exists r.
  - apply create_and_wp; [by apply reachable_wf|done|done].
  - cbn beta. intros f s' [? ?]. by apply builds_makes.
Qed.

Lemma create_or_r s a b : reachable s -> valid s a -> valid s b ->
  wp (create_or a b) s (makes s (fun env => sval (ev s env) a || sval (ev s env) b)).
Proof.
  intros Hr Ha Hb. eapply wp_mono; [eapply (reach_wp (OpOr a b)); [done| | |]|].
  - by repeat constructor.
  - intros r s' E. by exists r.
  - apply create_or_wp; [by apply reachable_wf|done|done].
  - cbn beta. intros f s' [? ?]. by apply builds_makes.
Qed.

Lemma create_xor_r s a b : reachable s -> valid s a -> valid s b ->
  wp (create_xor a b) s (makes s (fun env => xorb (sval (ev s env) a) (sval (ev s env) b))).
Proof.
  intros Hr Ha Hb. eapply wp_mono; [eapply (reach_wp (OpXor a b)); [done| | |]|].
  - by repeat constructor.
  - intros r s' E. by exists r.
  - apply create_xor_wp; [by apply reachable_wf|done|done].
  - cbn beta. intros f s' [? ?]. by apply builds_makes.
Qed.

Lemma create_nary_or_r s l : reachable s -> Forall (valid s) l ->
  wp (create_nary_or l) s (makes s (fun env => existsb (sval (ev s env)) l)).
Proof.
  intros Hr Hl. eapply wp_mono; [eapply (reach_wp (OpNaryOr l)); [done| | |]|].
  - done.
  - intros r s' E. by exists r.
  - apply create_nary_or_wp; [by apply reachable_wf|done].
  - cbn beta. intros f s' [? (? & ? & ? & Hv)]. split; [done|]. split; [done|]. split; [done|].
    intros env. rewrite Hv. apply foldr_existsb.
Qed.

Lemma create_pi_r s : reachable s ->
  wp create_pi s (fun f s' => reachable s' /\ f = Sig (size s) false /\
    ks s' = ks s ++ [(sig_of_data (length (ins s)), sig_of_data (length (ins s)))] /\
    ins s' = ins s ++ [size s] /\ outs s' = outs s /\ npi s' = S (npi s) /\ npo s' = npo s /\ lat s' = lat s).
Proof.
  intros Hr. eapply wp_mono; [eapply (reach_wp OpPi); [done| | |]|].
  - constructor.
  - intros r s' E. by exists r.
  - by apply create_pi_wp, reachable_wf.
  - cbn beta. tauto.
Qed.

Lemma create_po_r s f : reachable s -> valid s f ->
  wp (create_po f) s (fun r s' => reachable s' /\ ks s' = ks s /\ ins s' = ins s /\ outs s' = outs s ++ [f] /\
     npi s' = npi s /\ npo s' = S (npo s) /\ lat s' = lat s /\ r = length (outs s)).
Proof.
  intros Hr Hf. eapply wp_mono; [eapply (reach_wp (OpPo f)); [done| | |]|].
  - by repeat constructor.
  - intros r s' E. exists f. unfold step, bnd, ret. by rewrite E.
  - apply create_po_wp; [by apply reachable_wf|done].
  - cbn beta. tauto.
Qed.

(* create_and with nontrivial operands that are not yet conjoined makes a gate *)
Lemma create_and_new s a b : reachable s -> valid s a -> valid s b ->
  sidx a <> sidx b -> sidx a <> 0 -> sidx b <> 0 ->
  (forall n, ks s !! n <> Some (order a b)) ->
  wp (create_and a b) s (fun f s' => reachable s' /\ ext s s' /\ ks s' = ks s ++ [order a b] /\ f = Sig (size s) false).
Proof.
  intros Hr Ha Hb Hab Ha0 Hb0 Hno.
  assert (Hb2 : exists f s', create_and a b s = Some (f, s') /\ (ks s' = ks s ++ [order a b] /\ f = Sig (size s) false)).
  { pose proof (reachable_wf _ Hr) as Hw. unfold create_and.
    assert (Hord : valid s (order a b).2 /\ 0 < sidx (order a b).1 < sidx (order a b).2).
    { destruct (order_cases a b) as [[-> ?]|[-> ?]]; cbn; split; done || lia. }
    destruct (order a b) as [x y]. cbn in Hord. destruct Hord as [Hy Hlt].
    rewrite !decide_False by lia. assert (Hxy : x <> y) by (intros ->; lia).
    destruct (hash_find_wf s x y Hw Hxy) as (r & Hr' & Hrc). rewrite Hr'. cbn [mbind option_bind].
    destruct Hrc as [[Hr0 Hk]|[-> _]]; [by destruct (Hno r)|]. rewrite decide_True by done.
    pose proof (new_and_wp s x y Hw Hy ltac:(lia) ltac:(lia) Hno) as Hn. apply wp_elim in Hn as (f & s' & E & Hn).
    exists f, s'. split; [done|]. tauto. }
  destruct Hb2 as (f & s' & E & Hks & Hf). unfold wp. rewrite E.
  pose proof (create_and_r s a b Hr Ha Hb) as H. unfold wp in H. rewrite E in H.
  destruct H as (? & ? & ? & ?). done.
Qed.
