(* Property C12: LUT networks (klut_network.hpp).  [kreachable] and
   [kvaluation] are defined in KlutSem.v. *)
From Verif Require Import Base Tt TtProofs TtCache Klut KlutSem KlutProofs Demo.

(* decision procedure used by the examples *)
Definition kargs_okb (o : kop) : bool :=
  match o with KLut l f => (length (tb f) =? 2 ^ nv f) && (nv f =? length l) | _ => true end.
Fixpoint krun (ops : list kop) (s : klut) : option klut :=
  match ops with
  | [] => Some s
  | o :: r =>
      if forallb (fun c => c <? ksize s) (koperands o) && kargs_okb o && (N.of_nat (length (cdata (kc s))) <? 2 ^ 31)%N
      then '(_, s') ← kstep o s; krun r s' else None
  end.
Lemma krun_reachable ops : forall s s', kreachable s -> krun ops s = Some s' -> kreachable s'.
Proof.
  induction ops as [|o r IH]; cbn [krun]; intros s s' Hs H; [by injection H as <-|].
  destruct (_ && _) eqn:E; [|done]. destruct (kstep o s) as [[x s1]|] eqn:Es; [|done]. cbn in H.
  apply andb_prop in E as [E E3]. apply andb_prop in E as [E1 E2].
  apply (IH s1); [|done]. eapply kreach_step; [exact Hs| | | |exact Es].
  - apply Forall_forall. intros c Hc. rewrite forallb_forall in E1. apply Nat.ltb_lt, E1. by apply elem_of_list_In.
  - destruct o; try done. cbn in *. apply andb_prop in E2 as [A B]. split; [by apply Nat.eqb_eq|by apply Nat.eqb_eq].
  - by apply N.ltb_lt.
Qed.
Definition kdemo (ops : list kop) : klut := get_some klut_init (krun ops klut_init).
Lemma kdemo_reachable ops : is_Some (krun ops klut_init) -> kreachable (kdemo ops).
Proof. intros [s Hs]. unfold kdemo. rewrite Hs. eapply krun_reachable; [constructor|exact Hs]. Qed.

(* Every creation call succeeds, and in every valuation of the new network the
   returned node carries the named function of the operands; earlier nodes keep
   their values. *)
Theorem C12_constructors s o : kreachable s -> kroom s ->
  Forall (fun c => c < ksize s) (koperands o) -> kargs_ok o ->
  exists r s', kstep o s = Some (r, s') /\ r < ksize s' /\
  forall env v v', kvaluation s env v -> kvaluation s' env v' ->
    (forall n, n < ksize s -> v' n = v n) /\
    (forall b, kop_value o v = Some b -> v' r = b).
Proof. exact (klut_constructors s o). Qed.
Print Assumptions C12_constructors.

Theorem C12_meaning_exists s env : kreachable s ->
  exists v, kvaluation s env v /\ forall v', kvaluation s env v' -> forall n, n < ksize s -> v' n = v n.
Proof. exact (klut_meaning s env). Qed.
Print Assumptions C12_meaning_exists.

(* truth-table compute: pattern i of the result is the gate function applied to
   pattern i of the operands, operand k being variable k *)
Theorem C12_compute_tt s n x f tts t0 : kreachable s ->
  1 < n -> kn s !! n = Some x -> kis_ci s n = Some false -> knode_function s n = Some f ->
  length tts = length (kch x) -> head tts = Some t0 ->
  exists t, kcompute_tt s n tts = Some t /\ nv t = nv t0 /\
    forall i, i < 2 ^ nv t0 ->
      get_bit t i = tt_eval f (fun k => match tts !! k with Some t => get_bit t i | None => false end).
Proof. exact (klut_compute_tt s n x f tts t0). Qed.
Print Assumptions C12_compute_tt.

(* Boolean compute applies the gate function to the values in REVERSED order *)
Theorem C12_compute_bool_reversed s n x f vs : kreachable s ->
  1 < n -> kn s !! n = Some x -> kis_ci s n = Some false -> knode_function s n = Some f ->
  length vs = length (kch x) -> length vs <= 32 ->
  kcompute_bool s n vs = Some (tt_eval f (fun k => match rev vs !! k with Some b => b | None => false end)).
Proof. exact (klut_compute_bool s n x f vs). Qed.
Print Assumptions C12_compute_bool_reversed.

(* hence the two overloads disagree: the gate a < b *)
Definition demo_lt : klut := kdemo [KPi; KPi; KLt 2 3].
Theorem C12_compute_overloads_refuted :
  ~ (forall s n x (vs : list bool) tts t, kreachable s -> 1 < n -> kn s !! n = Some x -> kis_ci s n = Some false ->
       length vs = length (kch x) -> length vs <= 32 ->
       tts = map (fun b => tt_const 0 b) vs -> kcompute_tt s n tts = Some t ->
       kcompute_bool s n vs = Some (get_bit t 0)).
Proof.
  intros H. specialize (H demo_lt 4 (KNode [2; 3] 8 0 0) [false; true] [tt_const 0 false; tt_const 0 true]).
  assert (R : kreachable demo_lt).
  { apply kdemo_reachable. vm_compute. by eexists. }
  eapply H in R; try (vm_compute; reflexivity); try (cbn; lia). vm_compute in R. discriminate R.
Qed.
Print Assumptions C12_compute_overloads_refuted.

(* substitute_node by an equivalent earlier node keeps every output function
   and leaves no reference to the old node *)
Theorem C12_substitute s old new : kreachable s -> old < ksize s -> new < old ->
  (forall env v, kvaluation s env v -> v old = v new) ->
  exists s', ksubstitute old new s = Some s' /\ old ∉ kouts s' /\
    (forall n x, kn s' !! n = Some x -> old ∉ kch x) /\
    (forall env v v', kvaluation s env v -> kvaluation s' env v' ->
       (forall n, n < ksize s -> v' n = v n) /\ map v' (kouts s') = map v (kouts s)).
Proof. exact (fun Hr => ksubstitute_sound s old new (kreachable_wf s Hr)). Qed.
Print Assumptions C12_substitute.

(* clear_values overwrites the field that marks inputs *)
Theorem C12_clear_values_refuted :
  ~ (forall s n, kreachable s -> kis_pi (kclear_values s) n = kis_pi s n).
Proof.
  intros H. assert (R : kreachable (kdemo [KPi])).
  { apply kdemo_reachable. vm_compute. by eexists. }
  specialize (H _ 2 R). vm_compute in H. discriminate H.
Qed.
Print Assumptions C12_clear_values_refuted.

(* a network with repeated and constant operands, a LUT and an ite *)
Definition demo_klut_ops : list kop :=
  [KPi; KPi; KRo; KLt 2 3; KLut [4; 5; 2; 1] (tt_tab 4 (fun m => Nat.odd (m / 3))); KIte 6 5 0; KNaryXor [2; 3; 4; 7; 7]; KPo 7].
Lemma some_pair {A B} (a c : A) (b d : B) : Some (a, b) = Some (c, d) -> a = c /\ b = d.
Proof. by intros [= -> ->]. Qed.
Definition demo_klut : klut := kdemo demo_klut_ops.
Definition demo_klut2 : klut := kdemo (demo_klut_ops ++ [KMaj 11 1 0]).
Example C12_nonvacuous :
  kreachable demo_klut /\ kroom demo_klut /\ ksize demo_klut = 12 /\
  kis_ci demo_klut 6 = Some false /\ option_map nv (knode_function demo_klut 6) = Some 4 /\
  (* node 12 = maj(11, 1, 0) is equivalent to node 11 *)
  kreachable demo_klut2 /\ forall env v, kvaluation demo_klut2 env v -> v 12 = v 11.
Proof.
  assert (R : kreachable demo_klut) by (apply kdemo_reachable; vm_compute; by eexists).
  assert (R2 : kreachable demo_klut2) by (apply kdemo_reachable; vm_compute; by eexists).
  assert (Hr : kroom demo_klut) by (vm_compute; reflexivity).
  assert (Hsz : ksize demo_klut = 12) by (vm_compute; reflexivity).
  split; [exact R|]. split; [exact Hr|]. split; [exact Hsz|].
  split; [vm_compute; reflexivity|]. split; [vm_compute; reflexivity|]. split; [exact R2|].
  intros env v Hv.
  destruct (C12_constructors demo_klut (KMaj 11 1 0) R Hr) as (r & s' & E & _ & H).
  { apply Forall_forall. intros c Hc. cbn in Hc. rewrite Hsz. set_unfold. lia. }
  { exact I. }
  assert (E2 : kstep (KMaj 11 1 0) demo_klut = Some (12, demo_klut2)) by (vm_compute; reflexivity).
  rewrite E2 in E. apply some_pair in E as [<- <-].
  destruct (C12_meaning_exists demo_klut env R) as (v0 & Hv0 & _).
  destruct (H env v0 v Hv0 Hv) as [Hold Hnew]. rewrite (Hnew _ eq_refl).
  rewrite (kv_0 _ _ _ Hv0), (kv_1 _ _ _ Hv0), <- (Hold 11) by (rewrite Hsz; lia).
  by destruct (v 11).
Qed.
