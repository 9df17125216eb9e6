(* C36: the structures of the NPN database *)
From stdpp Require Import gmap.
From Verif Require Import Base Aig AigSem AigProofs AigApi AigReach Clean Tt TtProofs Npn NpnProofs Sim NodeRewriting NodeRewritingProofs NpnDatabase Demo.

(* ---- canonization ---- *)
(* The representative is the table with its inputs permuted and negated and its
   output negated as the returned configuration says. *)
Theorem C36_configuration t : tt_wf t -> 2 <= nv t <= 4 -> exists r ph perm,
  exact_npn_canonization t = Some (r, ph, perm) /\ tt_wf r /\ nv r = nv t /\ length perm = nv t /\
  npn_via (nv t) (fun i => nth i perm 0) (fun i => N.testbit ph (N.of_nat i)) (N.testbit ph (N.of_nat (nv t))) t r.
Proof.
  intros Hw Hn. destruct (canon_total t Hn) as [[[r ph] perm] E]. exists r, ph, perm.
  destruct (canon_via t r ph perm Hw E) as (Hl & Wr & Nr & V). done.
Qed.
Print Assumptions C36_configuration.

(* Two tables have the same representative exactly when they are the same up to
   permutation and negation, and it is the least table of the class. *)
Theorem C36_canonical t u r ph perm r' ph' perm' : tt_wf t -> tt_wf u -> nv u = nv t ->
  exact_npn_canonization t = Some (r, ph, perm) -> exact_npn_canonization u = Some (r', ph', perm') ->
  r = r' <-> npn_equiv (nv t) t u.
Proof.
  intros Ht Hu Hn E1 E2. split; [|intros H; exact (canon_unique t u r ph perm r' ph' perm' Ht Hu Hn H E1 E2)].
  intros <-. destruct (canon_via t r ph perm Ht E1) as (_ & _ & _ & V1). destruct (canon_via u r ph' perm' Hu E2) as (_ & _ & _ & V2).
  rewrite Hn in V2. apply (npn_equiv_trans _ _ r); [eexists _, _, _; exact V1|]. apply npn_equiv_sym. eexists _, _, _; exact V2.
Qed.
Print Assumptions C36_canonical.
Theorem C36_least t u r ph perm : tt_wf t -> exact_npn_canonization t = Some (r, ph, perm) ->
  tt_wf u -> nv u = nv t -> npn_equiv (nv t) t u -> (tt_num r <= tt_num u)%N.
Proof. apply canon_least. Qed.
Print Assumptions C36_least.

(* ---- decoding ---- *)
(* Every well-formed database vector is decoded without failure. *)
Theorem C36_decodes b vs : 0 < b -> (N.of_nat (length vs) < 2 ^ 26)%N -> db_valid vs -> exists d, generate_db b vs = Some d.
Proof. intros Hb Hl Hv. destruct (generate_ok b vs Hb Hl Hv) as (d & E & _). by exists d. Qed.
Print Assumptions C36_decodes.

Fixpoint check_gates (k : N) (ng : nat) (l : list N) : option (list N) :=
  match ng with
  | O => Some l
  | S ng' =>
      match l with
      | a :: b :: l' => if (a =? b)%N || (2 * k <=? a)%N || (2 * k <=? b)%N then None else check_gates (k + 1)%N ng' l'
      | _ => None
      end
  end.
Definition check_db (ng np : nat) (vs : list N) : bool :=
  match vs with
  | h :: l =>
      (h =? N.shiftl (N.of_nat ng) 16 + N.shiftl (N.of_nat np) 8 + 4)%N && (N.of_nat np <? 256)%N &&
      match check_gates 5 ng l with
      | Some r => (N.of_nat (length r) =? N.of_nat np)%N && forallb (fun a => (a <? 2 * (5 + N.of_nat ng))%N) r
      | None => false
      end
  | [] => false
  end.
Lemma check_gates_ok ng : forall k l r, check_gates k ng l = Some r ->
  length l = 2 * ng + length r /\ r = drop (2 * ng) l /\
  forall i, i < ng -> exists a b, l !! (2 * i) = Some a /\ l !! (1 + 2 * i) = Some b /\ a <> b /\
    (a < 2 * (k + N.of_nat i))%N /\ (b < 2 * (k + N.of_nat i))%N.
Proof.
  induction ng as [|ng IH]; intros k l r E; [injection E as ->; split; [lia|]; split; [reflexivity|]; intros; lia|].
  cbn [check_gates] in E. destruct l as [|a [|b l]]; [done|done|].
  destruct (N.eqb_spec a b); [done|]. destruct (N.leb_spec (2 * k) a); [done|]. destruct (N.leb_spec (2 * k) b); [done|]. cbn [orb] in E.
  destruct (IH _ _ _ E) as (H1 & H2 & H3). replace (2 * S ng) with (S (S (2 * ng))) by lia. cbn [length drop]. split; [lia|]. split; [done|].
  intros [|i] Hi; [exists a, b; repeat split; try done; lia|].
  destruct (H3 i ltac:(lia)) as (x & y & Hx & Hy & Hne & Lx & Ly). exists x, y.
  replace (2 * S i) with (S (S (2 * i))) by lia. replace (1 + S (S (2 * i))) with (S (S (1 + 2 * i))) by lia.
  repeat split; try done; lia.
Qed.
Lemma check_db_ok ng np vs : check_db ng np vs = true -> db_valid vs.
Proof.
  unfold check_db. destruct vs as [|h l]; [done|]. intros [[H1 H2]%andb_true_iff H3]%andb_true_iff.
  apply N.eqb_eq in H1. apply N.ltb_lt in H2. destruct (check_gates 5 ng l) as [r|] eqn:E; [|done].
  apply andb_true_iff in H3 as [H3 H4]. apply N.eqb_eq in H3. destruct (check_gates_ok ng _ _ _ E) as (L & D & G).
  exists ng, np. split; [cbn; by rewrite H1|]. split; [lia|]. split; [cbn; lia|]. split.
  - intros i Hi. destruct (G i Hi) as (a & b & Ha & Hb & Hne & La & Lb). exists a, b.
    split; [exact Ha|]. split; [exact Hb|]. split; [done|]. lia.
  - intros i Hi. destruct (lookup_lt_is_Some_2 r i ltac:(lia)) as [a Ha]. exists a. split.
    + rewrite D, lookup_drop in Ha. exact Ha.
    + rewrite forallb_forall in H4. specialize (H4 a (proj1 (elem_of_list_In _ _) (elem_of_list_lookup_2 _ _ _ Ha))). apply N.ltb_lt in H4. lia.
Qed.

(* The database of the source is well-formed. *)
Theorem C36_database : db_valid database_subgraphs_aig.
Proof. apply (check_db_ok 796 222). vm_compute. reflexivity. Qed.
Print Assumptions C36_database.

(* ---- the structures ---- *)
(* For every function of up to four variables, all leaf signals and every callback:
   rewriting succeeds, only adds gates, and every signal given to the callback
   computes the function of the leaves in the network at that time.  [Inv] is any
   property the callback maintains. *)
Theorem C36_structures {C} (fn : aig -> signal -> C -> option (bool * C)) (Inv : aig -> C -> Prop) b vs d t leaves s c :
  0 < b -> (N.of_nat (length vs) < 2 ^ 26)%N -> db_valid vs -> generate_db b vs = Some d ->
  nv t <= 4 -> length leaves <= 4 -> reachable s -> Forall (valid s) leaves ->
  (forall s1 s2 c, ext s1 s2 -> Inv s1 c -> Inv s2 c) ->
  (forall s' f c, reachable s' -> ext s s' -> implements s' t leaves f -> Inv s' c ->
     exists go c', fn s' f c = Some (go, c') /\ Inv s' c') ->
  Inv s c ->
  exists s' c', node_rewriting fn d t leaves s c = Some (s', c') /\ reachable s' /\ ext s s' /\ Inv s' c'.
Proof.
  intros Hb Hl Hv Ed Ht Hll R Vl Hgrow Hfn Hc. destruct (generate_ok b vs Hb Hl Hv) as (d' & Ed' & Hd).
  rewrite Ed in Ed'. injection Ed' as <-. apply (rewriting_ok fn Inv); try done.
  intros s' f c' R' X' Vf Hf Ic. apply Hfn; [done|done| |done]. split; [done|]. intros env v Hval.
  pose proof (valuation_unique s' env v (reachable_wf s' R') Hval) as Hu.
  transitivity (sval (ev s' env) f); [unfold sval; by rewrite (Hu (sidx f) Vf)|]. rewrite Hf. apply eval_ext. intros k Hk. unfold lval.
  destruct (leaves !! k) as [g|] eqn:Eg; [|done]. cbn. pose proof (proj1 (Forall_lookup _ _) Vl k g Eg) as Vg.
  rewrite <- (ext_sval s s' env g X' Vg). unfold sval. rewrite (Hu (sidx g)); [done|]. by apply (ext_valid s).
Qed.
Print Assumptions C36_structures.

(* The callback that only remembers the signals it is given. *)
Definition collect (s : aig) (f : signal) (c : list signal) : option (bool * list signal) := Some (true, c ++ [f]).
Lemma implements_ext s s' t leaves f : reachable s -> reachable s' -> ext s s' -> Forall (valid s) leaves ->
  implements s t leaves f -> implements s' t leaves f.
Proof.
  intros R R' X Vl [Vf Hf]. split; [by apply (ext_valid s)|]. intros env v Hval.
  pose proof (valuation_unique s' env v (reachable_wf s' R') Hval) as Hu.
  assert (Hs : forall g, valid s g -> sval v g = sval (ev s env) g).
  { intros g Vg. rewrite <- (ext_sval s s' env g X Vg). unfold sval. rewrite (Hu (sidx g)); [done|]. by apply (ext_valid s). }
  rewrite (Hs f Vf), (Hf env (ev s env)) by (apply ev_valuation; by apply reachable_wf).
  apply eval_ext. intros k Hk. destruct (leaves !! k) as [g|] eqn:Eg; [|done]. cbn. symmetry. apply Hs.
  exact (proj1 (Forall_lookup _ _) Vl k g Eg).
Qed.
(* For the database of the source: all the structures implement the function. *)
Theorem C36_all b d t leaves s : 0 < b -> generate_db b database_subgraphs_aig = Some d ->
  nv t <= 4 -> length leaves <= 4 -> reachable s -> Forall (valid s) leaves ->
  exists s' l, node_rewriting collect d t leaves s [] = Some (s', l) /\ reachable s' /\ ext s s' /\ Forall (implements s' t leaves) l.
Proof.
  intros Hb Ed Ht Hll R Vl.
  destruct (C36_structures collect (fun s1 l => forall s2, ext s1 s2 -> reachable s2 -> Forall (implements s2 t leaves) l)
    b database_subgraphs_aig d t leaves s []) as (s' & l & E & R' & X & H); [done|vm_compute; reflexivity|exact C36_database|done|done|done|done|done| | | |].
  - intros s1 s2 c X H s3 X'. apply H. by eapply ext_trans.
  - intros s' f c R' X' Hi Hc. exists true, (c ++ [f]). split; [done|]. intros s2 X2 R2. apply Forall_app. split; [by apply Hc|].
    constructor; [|constructor]. apply (implements_ext s'); try done. eapply Forall_impl; [exact Vl|]. intros g Hg. by apply (ext_valid s).
  - intros s2 _ _. constructor.
  - exists s', l. split; [done|]. split; [done|]. split; [done|]. apply H; [apply ext_refl|done].
Qed.
Print Assumptions C36_all.

(* ---- not vacuous ---- *)
(* a database with one gate, !x2 & !x3; the function !x0 | x2 of three leaves is in
   its class and is implemented by a new gate *)
Definition one_gate : list N := [65796; 7; 9; 10]%N.
Example one_gate_valid : db_valid one_gate.
Proof. apply (check_db_ok 1 1). vm_compute. reflexivity. Qed.
Definition impl_tt : tt := tt_or (tt_not (tt_var 3 0)) (tt_var 3 2).
Example one_gate_used :
  match generate_db 4 one_gate, mapM (fun _ => create_pi) (seq 0 3) (aig_init_n 4) with
  | Some d, Some (ls, s) =>
      match node_rewriting collect d impl_tt ls s [] with
      | Some (s', l) => bool_decide (size s = 4 /\ size s' = 5 /\ l = [Sig 4 true])
      | None => false
      end
  | _, _ => false
  end = true.
Proof. vm_compute. reflexivity. Qed.
(* the canonization of a two-input function, with its configuration *)
Example canonization_2 : exact_npn_canonization (tt_or (tt_var 2 0) (tt_not (tt_var 2 1))) = Some (tt_not (tt_or (tt_var 2 0) (tt_var 2 1)), 6%N, [0; 1]).
Proof. vm_compute. reflexivity. Qed.
