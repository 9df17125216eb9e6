(* C57: checking a mapped network by conversion and a miter. *)
From Verif Require Import Base Aig AigSem AigProofs AigApi AigReach Topo Clean NetProofs Tt TtProofs TtCache Klut KlutSem Isop Cnf CnfProofs PropNet PropCnf Choice ChoiceCompute
  Mapping Demo NetDemo ConvertProofs PropMapping Checker PropChecker CollapseProofs Debugger DebuggerProofs CollapseShaped.
Local Open Scope nat_scope.

(* Comparing two networks: the verdict is right. *)
Theorem C57_compare nb solve s1 s2 b : correct_solver solve -> 0 < nb -> network s1 -> network s2 -> is_combinational s1 = true -> is_combinational s2 = true ->
  (forall d, miter nb s1 s2 = Some (Some d) -> (N.of_nat (2 * size d + length (outs d)) < 2 ^ 31)%N) ->
  compare_by_miter nb solve s1 s2 = Some b -> b = true <-> npi s1 = npi s2 /\ npo s1 = npo s2 /\ forall env l, computes s1 env l <-> computes s2 env l.
Proof. apply compare_spec. Qed.
Print Assumptions C57_compare.

(* The converted network computes what the cells compute, whatever their functions are. *)
Theorem C57_converted nb s m : 0 < nb -> network s -> alive s -> is_combinational s = true -> shaped s m ->
  exists d, convert_mapped_graph_to_aig nb s m = Some d /\ reachable d /\ is_combinational d = true /\ npi d = npi s /\ npo d = npo s /\
    forall env l, mapped_computes s m env l <-> computes d env l.
Proof.
  intros Hnb W Ha C Hs. destruct (combinational s C) as [Hi Ho]. destruct (convert_shaped_spec nb s m Hnb W Ha Hi Hs) as (d & E & R & Hp & Hli & Hpo & Hlo & Hc).
  exists d. split; [done|]. split; [done|]. split; [apply bool_decide_eq_true_2; lia|]. split; [done|]. split; [|done]. by rewrite Hpo, (comb_pos s C).
Qed.
Print Assumptions C57_converted.

(* The check tells whether the cells compute the functions of the network. *)
Theorem C57_check nb solve s m b : correct_solver solve -> 0 < nb -> network s -> alive s -> is_combinational s = true -> shaped s m ->
  (forall a d, convert_mapped_graph_to_aig nb s m = Some a -> miter nb a s = Some (Some d) -> (N.of_nat (2 * size d + length (outs d)) < 2 ^ 31)%N) ->
  debug_mapped_aig_by_converted_miter nb solve s m = Some b ->
  b = true <-> forall env l, computes s env l <-> mapped_computes s m env l.
Proof.
  intros Hsat Hnb W Ha C Hs Hsz H. destruct (C57_converted nb s m Hnb W Ha C Hs) as (a & E & R & Ca & Hi & Ho & Hc).
  unfold debug_mapped_aig_by_converted_miter in H. rewrite E in H. cbn [mbind option_bind] in H.
  rewrite (C57_compare nb solve a s b Hsat Hnb (wf_network _ (reachable_wf _ R)) W Ca C (fun d => Hsz a d E) H). split.
  - intros (_ & _ & He) env l. rewrite (Hc env l). symmetry. apply He.
  - intros He. split; [done|]. split; [done|]. intros env l. rewrite <- (Hc env l). symmetry. apply He.
Qed.
Print Assumptions C57_check.

(* A mapping all of whose cells are right passes. *)
Theorem C57_right nb solve s m b : correct_solver solve -> 0 < nb -> network s -> alive s -> is_combinational s = true -> shaped s m ->
  (forall n, root s m n -> right_cell s m n) ->
  (forall a d, convert_mapped_graph_to_aig nb s m = Some a -> miter nb a s = Some (Some d) -> (N.of_nat (2 * size d + length (outs d)) < 2 ^ 31)%N) ->
  debug_mapped_aig_by_converted_miter nb solve s m = Some b -> b = true.
Proof.
  intros Hsat Hnb W Ha C Hs Hr Hsz H. apply (C57_check nb solve s m b Hsat Hnb W Ha C Hs Hsz H).
  assert (Hm : forall env v, valuation s env v -> mval s m env v).
  { intros env v V. split; [apply V|apply V|]. intros n l f Hn El Ef. destruct (Hr n Hn) as (l' & f' & El' & Ef' & Hv). rewrite El in El'. rewrite Ef in Ef'.
    injection El' as <-. injection Ef' as <-. by eapply Hv. }
  destruct (C57_converted nb s m Hnb W Ha C Hs) as (a & E & R & Ca & Hi & Ho & Hc). pose proof (wf_network _ (reachable_wf _ R)) as Wa.
  intros env l. split.
  - intros (v & V & ->). exists v. split; [by apply Hm|done].
  - intros Hl. destruct (net_valuation s env W) as [v V]. exists v. split; [done|]. apply (computes_unique a env _ _ Wa); apply Hc; [done|]. exists v. split; [by apply Hm|done].
Qed.
Print Assumptions C57_right.

(* Collapsing the mapping gives a LUT network that computes what the cells compute. *)
Theorem C57_collapsed s m : network s -> alive s -> is_combinational s = true -> shaped s m -> has_mapping m = true -> (N.of_nat (12 + 2 * size s) <= 2 ^ 31)%N ->
  exists k, choice_to_klut s m = Some (Some k) /\ kreachable k /\ knpi k = npi s /\ knpo k = npo s /\
    forall env l, mapped_computes s m env l <-> kcomputes k env l.
Proof.
  intros W Ha Hcb Hs Hmap Hroom. pose proof (comb_pos s Hcb) as Hpl. destruct (combinational s Hcb) as [Hi Ho].
  destruct (gates_spec s W Ha) as (gs & E & Hnd & Hgs).
  assert (Hlt : forall x, x ∈ gs -> x < size s).
  { intros x (a & b & Ek & _)%Hgs. by apply lookup_lt_Some in Ek. }
  assert (Hlen : length gs <= size s) by (by apply nodup_bound).
  destruct (CollapseShaped.to_klut_spec m s gs) as (d & Ed & Rd & Hp & Hk & Hpo & Hko & Hc); try done.
  - by left.
  - intros p n q Eo _ c Hpr Hb. destruct Hpr as [?|[?|Hr]]; [by left|by right; left|]. right. right.
    eapply gates_before; [done|done|done|exact Eo|apply Hr|done].
  - intros f Hf Hr. apply Hgs, Hr.
  - lia.
  - exists d. unfold choice_to_klut. rewrite E. rewrite Hpl in *. done.
Qed.
Print Assumptions C57_collapsed.
(* Hence the check tells whether the LUT network has the functions of the network. *)
Theorem C57_verdict nb solve s m b k : correct_solver solve -> 0 < nb -> network s -> alive s -> is_combinational s = true -> shaped s m ->
  (forall a d, convert_mapped_graph_to_aig nb s m = Some a -> miter nb a s = Some (Some d) -> (N.of_nat (2 * size d + length (outs d)) < 2 ^ 31)%N) ->
  has_mapping m = true -> (N.of_nat (12 + 2 * size s) <= 2 ^ 31)%N ->
  debug_mapped_aig_by_converted_miter nb solve s m = Some b -> choice_to_klut s m = Some (Some k) ->
  b = true <-> forall env l, computes s env l <-> kcomputes k env l.
Proof.
  intros Hsat Hnb W Ha C Hs Hsz Hm Hroom H Hk. rewrite (C57_check nb solve s m b Hsat Hnb W Ha C Hs Hsz H).
  destruct (C57_collapsed s m W Ha C Hs Hm Hroom) as (k' & Ek & _ & _ & _ & Hc). rewrite Hk in Ek. injection Ek as <-.
  split; intros He env l; [rewrite <- (Hc env l)|rewrite (Hc env l)]; apply He.
Qed.
Print Assumptions C57_verdict.

(* What the mapping checker accepts without timeouts, this check does not reject. *)
Theorem C57_agrees fuel nb c m csolve solve b : correct_csolver csolve -> (forall cls, csolve cls <> Timeout) -> correct_solver solve -> 0 < nb ->
  reachable (cb c) -> is_combinational (cb c) = true -> alive (cb c) -> (forall n m, link c n m -> alike (cb c) n m) -> shaped (cb c) m ->
  (forall a d, convert_mapped_graph_to_aig nb (cb c) m = Some a -> miter nb a (cb c) = Some (Some d) -> (N.of_nat (2 * size d + length (outs d)) < 2 ^ 31)%N) ->
  checker_run fuel c m csolve = Some true -> debug_mapped_aig_by_converted_miter nb solve (cb c) m = Some b -> b = true.
Proof.
  intros Hcs Ht Hsat Hnb R C Ha Hl Hs Hsz Hc H. eapply (C57_right nb solve (cb c) m b); try done; [by apply wf_network, reachable_wf|].
  apply (C56_run fuel c m csolve Hcs Ht R C Ha Hl); [|done]. intros n f l Hn Ef El.
  destruct (sh_cell _ _ Hs n Hn) as (l' & f' & El' & Ef' & Hwf & Hnv & _). rewrite El in El'. rewrite Ef in Ef'. injection El' as <-. injection Ef' as <-. done.
Qed.
Print Assumptions C57_agrees.

(* ---- nonvacuity: with every solver that is correct and complete, the right mapping
   of PropChecker.v passes and the wrong one does not ---- *)
Lemma ck_shaped s m f : pos s = [Sig 5 false] -> ins s = [1; 2; 3] -> is_gate s 4 -> is_gate s 5 -> size s = 6 -> length (mm m) >= 6 ->
  (forall n, is_gate s n -> n = 4 \/ n = 5) -> is_cell_root m 4 = Some true -> is_cell_root m 5 = Some true ->
  cell_fanin m 4 = Some [1; 2] -> cell_fanin m 5 = Some [3; 4] -> cell_function m 4 = Some and2 -> cell_function m 5 = Some f -> tt_wf f -> nv f = 2 -> shaped s m.
Proof.
  intros Hp Hi G4 G5 Hs Hl Hg R4 R5 F4 F5 T4 T5 Hwf Hn. split.
  - lia.
  - intros o Ho. rewrite Hp in Ho. apply elem_of_list_singleton in Ho as ->. right. right. done.
  - intros n Hn'. destruct (Hg n (proj1 Hn')) as [Hn4|Hn5]; subst n.
    + exists [1; 2], and2. split; [done|]. split; [done|]. split; [vm_compute; repeat constructor|]. split; [done|]. intros c Hc. rewrite !elem_of_cons, elem_of_nil in Hc.
      split; [right; left; rewrite Hi, !elem_of_cons; tauto|lia].
    + exists [3; 4], f. split; [done|]. split; [done|]. split; [done|]. split; [done|]. intros c Hc. rewrite !elem_of_cons, elem_of_nil in Hc.
      destruct Hc as [->|[->|[]]]; (split; [|lia]); [right; left; rewrite Hi, !elem_of_cons; tauto|right; right; done].
Qed.
Definition ck_miter (f : tt) : bool := match convert_mapped_graph_to_aig 1 ck_net (ck_map f) with
  | Some a => match miter 1 a ck_net with
    | Some (Some d) => bool_decide (N.of_nat (2 * size d + length (outs d)) < 100)%N && match ks d !! 4 with Some (x, y) => bool_decide (x <> y) | None => false end
    | _ => false end
  | None => false end.
Lemma ck_miter_ok : ck_miter and2 = true /\ ck_miter or2 = true.
Proof. split; vm_compute; reflexivity. Qed.
Lemma ck_decides s m solve : correct_solver solve -> complete_solver solve -> network s -> alive s -> is_combinational s = true -> shaped s m ->
  match convert_mapped_graph_to_aig 1 s m with
  | Some a => match miter 1 a s with
    | Some (Some d) => bool_decide (N.of_nat (2 * size d + length (outs d)) < 100)%N && match ks d !! 4 with Some (x, y) => bool_decide (x <> y) | None => false end
    | _ => false end
  | None => false end = true ->
  exists b, debug_mapped_aig_by_converted_miter 1 solve s m = Some b /\ (b = true <-> forall env l, computes s env l <-> mapped_computes s m env l) /\
  forall a d, convert_mapped_graph_to_aig 1 s m = Some a -> miter 1 a s = Some (Some d) -> (N.of_nat (2 * size d + length (outs d)) < 2 ^ 31)%N.
Proof.
  intros Hsat Hcomp W Ha C Hs H. destruct (C57_converted 1 s m ltac:(lia) W Ha C Hs) as (a & E & R & Ca & Hi & Ho & Hc). rewrite E in H.
  pose proof (wf_network _ (reachable_wf _ R)) as Wa. destruct (C28_miter 1 a s ltac:(lia) Wa W Ca C) as [_ Heq]. destruct (Heq Hi Ho) as (d & Ed & Rd & Cd & _ & Hpo & _).
  rewrite Ed in H. apply andb_true_iff in H as [Hsz%bool_decide_eq_true Hg].
  assert (Hsz' : (N.of_nat (2 * size d + length (outs d)) < 2 ^ 31)%N) by lia.
  assert (Hn : equivalence_checking solve d <> None).
  { apply (C30_completes solve d Hsat Hcomp (wf_network _ (reachable_wf _ Rd)) (small_alive _ Rd Hsz') Cd Hpo). left. exists 4.
    destruct (ks d !! 4) as [[x y]|] eqn:Ek; [|done]. apply bool_decide_eq_true in Hg. exists x, y. done. }
  destruct (equivalence_checking solve d) as [[r cex]|] eqn:Er; [|done].
  destruct (C30_miter solve 1 a s d r cex Hsat ltac:(lia) Wa W Ca C Ed Hsz' Er) as (_ & _ & V3). destruct r as [b|]; [|by destruct (V3 Hcomp)].
  assert (Hd : debug_mapped_aig_by_converted_miter 1 solve s m = Some b).
  { unfold debug_mapped_aig_by_converted_miter, compare_by_miter. rewrite E. cbn [mbind option_bind]. rewrite Ed. cbn [mbind option_bind]. rewrite Er. reflexivity. }
  assert (Hall : forall a d, convert_mapped_graph_to_aig 1 s m = Some a -> miter 1 a s = Some (Some d) -> (N.of_nat (2 * size d + length (outs d)) < 2 ^ 31)%N).
  { intros a' d' Ea Ed'. rewrite E in Ea. injection Ea as <-. rewrite Ed in Ed'. injection Ed' as <-. exact Hsz'. }
  exists b. split; [exact Hd|]. split; [|exact Hall]. by apply (C57_check 1 solve s m b Hsat ltac:(lia) W Ha C Hs Hall).
Qed.
Lemma ck_gates s : ks s = [(Sig 0 false, Sig 0 false); (Sig 0 false, Sig 0 false); (Sig 0 true, Sig 0 true); (Sig 1 false, Sig 1 false);
    (Sig 1 false, Sig 2 false); (Sig 3 false, Sig 4 false)] -> is_gate s 4 /\ is_gate s 5 /\ size s = 6 /\ forall n, is_gate s n -> n = 4 \/ n = 5.
Proof.
  intros K. split; [exists (Sig 1 false), (Sig 2 false); rewrite K; done|]. split; [exists (Sig 3 false), (Sig 4 false); rewrite K; done|]. split; [unfold size; by rewrite K|].
  intros n (a & b & Hk & H0 & Hab). rewrite K in Hk.
  do 4 (destruct n as [|n]; [cbn in Hk; injection Hk as <- <-; exfalso; congruence|]). destruct n as [|[|n]]; [by left|by right|discriminate Hk].
Qed.
Lemma ck_differs s m : pos s = [Sig 5 false] -> ins s = [1; 2; 3] -> network s -> root s m 5 -> cell_fanin m 5 = Some [3; 4] -> cell_function m 5 = Some or2 ->
  ks s !! 4 = Some (Sig 1 false, Sig 2 false) -> ks s !! 5 = Some (Sig 3 false, Sig 4 false) ->
  ~ forall env l, computes s env l <-> mapped_computes s m env l.
Proof.
  intros Hp Hi W R5 F5 T5 K4 K5 H. set (env := fun k => bool_decide (k = 2)). destruct (net_valuation s env W) as [v V].
  destruct (proj1 (H env (map (sval v) (pos s)))) as (w & Mw & Hw); [by exists v|].
  rewrite Hp in Hw. cbn in Hw. injection Hw as Hw. unfold sval in Hw. cbn in Hw.
  assert (V4 : v 4 = false). { rewrite (val_gate _ _ _ V 4 _ _ K4); [|done|done]. unfold sval. cbn. rewrite (val_input _ _ _ V 0 1) by (by rewrite Hi). done. }
  assert (V5 : v 5 = false). { rewrite (val_gate _ _ _ V 5 _ _ K5); [|done|done]. unfold sval. cbn. rewrite V4. apply andb_false_r. }
  assert (W3 : w 3 = true) by (rewrite (mv_input _ _ _ _ Mw 2 3) by (by rewrite Hi); done).
  assert (W5 : w 5 = true).
  { rewrite (mv_cell _ _ _ _ Mw 5 _ _ R5 F5 T5). transitivity (tt_eval or2 (fun k => match [true; w 4] !! k with Some c => c | None => false end)); [|destruct (w 4); vm_compute; reflexivity].
    apply eval_ext. intros [|[|k]] _; cbn; [by rewrite W3|done|done]. }
  rewrite V5, W5 in Hw. discriminate Hw.
Qed.
Example C57_nonvacuous solve : correct_solver solve -> complete_solver solve ->
  debug_mapped_aig_by_converted_miter 1 solve ck_net (ck_map and2) = Some true /\ debug_mapped_aig_by_converted_miter 1 solve ck_net (ck_map or2) = Some false.
Proof.
  intros Hsat Hcomp. destruct ck_ok as (R & C & A & Hr & Hp). destruct ck_miter_ok as [M1 M2].
  assert (K : ks ck_net = [(Sig 0 false, Sig 0 false); (Sig 0 false, Sig 0 false); (Sig 0 true, Sig 0 true); (Sig 1 false, Sig 1 false);
    (Sig 1 false, Sig 2 false); (Sig 3 false, Sig 4 false)]) by (vm_compute; reflexivity).
  assert (Hi : ins ck_net = [1; 2; 3]) by (vm_compute; reflexivity).
  pose proof (proj2 C56_accepts_nonvacuous) as Hex.
  unfold ck_miter in M1, M2.
  assert (Q : forall f, f = and2 \/ f = or2 -> is_cell_root (ck_map f) 4 = Some true /\ is_cell_root (ck_map f) 5 = Some true /\ cell_fanin (ck_map f) 4 = Some [1; 2] /\
    cell_fanin (ck_map f) 5 = Some [3; 4] /\ cell_function (ck_map f) 4 = Some and2 /\ cell_function (ck_map f) 5 = Some f /\ 6 <= length (mm (ck_map f))).
  { intros f [E|E]; rewrite E; do 6 (split; [vm_compute; reflexivity|]); vm_compute; lia. }
  assert (Q1 := Q and2 (or_introl eq_refl)). assert (Q2 := Q or2 (or_intror eq_refl)). clear Q.
  revert R C A Hr Hp M1 M2 K Hi Hex Q1 Q2. generalize ck_net (ck_map and2) (ck_map or2). intros s m1 m2 R C A Hr Hp M1 M2 K Hi Hex Q1 Q2.
  destruct (ck_gates s K) as (G4 & G5 & Hs & Hg). pose proof (wf_network _ (reachable_wf _ R)) as W.
  assert (S1 : shaped s m1).
  { destruct Q1 as (? & ? & ? & ? & ? & ? & ?). apply (ck_shaped s m1 and2); try assumption; [vm_compute; repeat constructor|reflexivity]. }
  assert (S2 : shaped s m2).
  { destruct Q2 as (? & ? & ? & ? & ? & ? & ?). apply (ck_shaped s m2 or2); try assumption; [vm_compute; repeat constructor|reflexivity]. }
  destruct (ck_decides s m1 solve Hsat Hcomp W A C S1 M1) as (b1 & E1 & _ & Z1). destruct (ck_decides s m2 solve Hsat Hcomp W A C S2 M2) as (b2 & E2 & H2 & _). clear M1 M2.
  split.
  - rewrite E1. f_equal. apply (C57_right 1 solve s m1 b1); try assumption; [lia|].
    intros n Hn. destruct (Hex n Hn) as (l & f & El & Ef & _ & _ & Hcut & Hv). exists l, f. split; [exact El|]. split; [exact Ef|]. intros env v V. apply Hv.
    intros n' a b Hin Hnl Hk. destruct (Hcut n' Hin Hnl) as (a' & b' & Hk' & H0 & Hab). rewrite Hk in Hk'. injection Hk' as <- <-. by apply (val_gate _ _ _ V).
  - rewrite E2. f_equal. destruct b2; [|reflexivity]. exfalso. apply (ck_differs s m2); try assumption; try (rewrite K; reflexivity); try (by apply Q2). by apply H2.
Qed.

(* The mapping checker is the stricter of the two: a LUT that is wrong where it does
   not matter for the outputs is rejected by the checker and accepted by the miter. *)
Definition mk_net : aig := build [OpPi; OpPi; OpAnd (Sig 1 false) (Sig 2 false); OpAnd (Sig 1 false) (Sig 3 false); OpPo (Sig 4 false)].
Definition snd2 : tt := tt_word 2 0xC.
Definition mk_map : mview := get_some (mv_init 0) (mrun 5 [MAdd 3 [1; 2]; MSet 3 snd2; MAdd 4 [1; 3]; MSet 4 and2] (mv_init 5)).
Lemma mk_shaped s m : pos s = [Sig 4 false] -> ins s = [1; 2] -> size s = 5 -> 5 <= length (mm m) ->
  (forall n, is_gate s n -> n = 3 \/ n = 4) -> root s m 3 -> root s m 4 ->
  cell_fanin m 3 = Some [1; 2] -> cell_fanin m 4 = Some [1; 3] -> cell_function m 3 = Some snd2 -> cell_function m 4 = Some and2 -> shaped s m.
Proof.
  intros Hp Hi Hs Hl Hg R3 R4 F3 F4 T3 T4. split.
  - lia.
  - intros o Ho. rewrite Hp in Ho. apply elem_of_list_singleton in Ho as ->. right. right. exact R4.
  - intros n Hn. destruct (Hg n (proj1 Hn)) as [Hn'|Hn']; subst n.
    + exists [1; 2], snd2. split; [done|]. split; [done|]. split; [vm_compute; repeat constructor|]. split; [done|]. intros c Hc. rewrite !elem_of_cons, elem_of_nil in Hc.
      split; [right; left; rewrite Hi, !elem_of_cons; tauto|lia].
    + exists [1; 3], and2. split; [done|]. split; [done|]. split; [vm_compute; repeat constructor|]. split; [done|]. intros c Hc. rewrite !elem_of_cons, elem_of_nil in Hc.
      destruct Hc as [->|[->|[]]]; (split; [|lia]); [right; left; rewrite Hi, !elem_of_cons; tauto|right; right; exact R3].
Qed.
Lemma mk_same s m : network s -> shaped s m -> pos s = [Sig 4 false] -> ins s = [1; 2] -> ks s !! 3 = Some (Sig 1 false, Sig 2 false) -> ks s !! 4 = Some (Sig 1 false, Sig 3 false) ->
  root s m 3 -> root s m 4 -> cell_fanin m 3 = Some [1; 2] -> cell_fanin m 4 = Some [1; 3] -> cell_function m 3 = Some snd2 -> cell_function m 4 = Some and2 ->
  forall env l, computes s env l <-> mapped_computes s m env l.
Proof.
  intros W Hs Hp Hi K3 K4 R3 R4 F3 F4 T3 T4 env l.
  assert (E : forall v w, valuation s env v -> mval s m env w -> map (sval v) (pos s) = map (sval w) (pos s)).
  { intros v w V M. rewrite Hp. cbn. unfold sval. cbn.
    assert (V1 : v 1 = env 0) by (apply (val_input _ _ _ V); by rewrite Hi). assert (V2 : v 2 = env 1) by (apply (val_input _ _ _ V); by rewrite Hi).
    assert (W1 : w 1 = env 0) by (apply (mv_input _ _ _ _ M); by rewrite Hi). assert (W2 : w 2 = env 1) by (apply (mv_input _ _ _ _ M); by rewrite Hi).
    assert (V3 : v 3 = env 0 && env 1). { rewrite (val_gate _ _ _ V 3 _ _ K3); [|done|done]. unfold sval. cbn. rewrite V1, V2. by destruct (env 0), (env 1). }
    assert (V4 : v 4 = env 0 && env 1). { rewrite (val_gate _ _ _ V 4 _ _ K4); [|done|done]. unfold sval. cbn. rewrite V1, V3. by destruct (env 0), (env 1). }
    assert (W3 : w 3 = env 1).
    { rewrite (mv_cell _ _ _ _ M 3 _ _ R3 F3 T3). transitivity (tt_eval snd2 (fun k => match [env 0; env 1] !! k with Some c => c | None => false end)); [|destruct (env 0), (env 1); vm_compute; reflexivity].
      apply eval_ext. intros [|[|k]] _; cbn; [exact W1|exact W2|reflexivity]. }
    assert (W4 : w 4 = env 0 && env 1).
    { rewrite (mv_cell _ _ _ _ M 4 _ _ R4 F4 T4). transitivity (tt_eval and2 (fun k => match [env 0; env 1] !! k with Some c => c | None => false end)); [|destruct (env 0), (env 1); vm_compute; reflexivity].
      apply eval_ext. intros [|[|k]] _; cbn; [exact W1|exact W3|reflexivity]. }
    by rewrite V4, W4. }
  destruct (net_valuation s env W) as [v V]. destruct (mval_exists s m env W Hs) as [w M]. split.
  - intros (v' & V' & ->). exists w. split; [exact M|]. by apply E.
  - intros (w' & M' & ->). exists v. split; [exact V|]. symmetry. by apply E.
Qed.
Lemma mk_gates s : ks s = [(Sig 0 false, Sig 0 false); (Sig 0 false, Sig 0 false); (Sig 0 true, Sig 0 true);
    (Sig 1 false, Sig 2 false); (Sig 1 false, Sig 3 false)] -> is_gate s 3 /\ is_gate s 4 /\ size s = 5 /\ forall n, is_gate s n -> n = 3 \/ n = 4.
Proof.
  intros K. split; [exists (Sig 1 false), (Sig 2 false); rewrite K; done|]. split; [exists (Sig 1 false), (Sig 3 false); rewrite K; done|]. split; [unfold size; by rewrite K|].
  intros n (a & b & Hk & H0 & Hab). rewrite K in Hk.
  do 3 (destruct n as [|n]; [cbn in Hk; injection Hk as <- <-; exfalso; congruence|]). destruct n as [|[|n]]; [by left|by right|discriminate Hk].
Qed.
Theorem C57_converse_refuted : exists s m, reachable s /\ is_combinational s = true /\ alive s /\ shaped s m /\
  (exists csolve, correct_csolver csolve /\ (forall cls, csolve cls <> Timeout) /\ checker_run 20 (choice_of_aig s) m csolve = Some false) /\
  forall solve, correct_solver solve -> complete_solver solve -> debug_mapped_aig_by_converted_miter 1 solve s m = Some true.
Proof.
  exists mk_net, mk_map.
  assert (R : reachable mk_net) by (apply build_reachable; vm_compute; reflexivity).
  assert (C : is_combinational mk_net = true) by (vm_compute; reflexivity).
  assert (A : alive mk_net) by (apply small_alive; [exact R|vm_compute; reflexivity]).
  assert (K : ks mk_net = [(Sig 0 false, Sig 0 false); (Sig 0 false, Sig 0 false); (Sig 0 true, Sig 0 true);
    (Sig 1 false, Sig 2 false); (Sig 1 false, Sig 3 false)]) by (vm_compute; reflexivity).
  assert (Hi : ins mk_net = [1; 2]) by (vm_compute; reflexivity). assert (Hp : pos mk_net = [Sig 4 false]) by (vm_compute; reflexivity).
  assert (Q : is_cell_root mk_map 3 = Some true /\ is_cell_root mk_map 4 = Some true /\ cell_fanin mk_map 3 = Some [1; 2] /\
    cell_fanin mk_map 4 = Some [1; 3] /\ cell_function mk_map 3 = Some snd2 /\ cell_function mk_map 4 = Some and2) by (vm_compute; tauto).
  assert (L : 5 <= length (mm mk_map)) by (vm_compute; lia).
  assert (X : checker_run 20 (choice_of_aig mk_net) mk_map cbrute = Some false) by (vm_compute; reflexivity).
  assert (M : match convert_mapped_graph_to_aig 1 mk_net mk_map with
  | Some a => match miter 1 a mk_net with
    | Some (Some d) => bool_decide (N.of_nat (2 * size d + length (outs d)) < 100)%N && match ks d !! 4 with Some (x, y) => bool_decide (x <> y) | None => false end
    | _ => false end
  | None => false end = true) by (vm_compute; reflexivity).
  revert R C A K Hi Hp Q L X M. generalize mk_net mk_map. intros s m R C A K Hi Hp (Q3 & Q4 & F3 & F4 & T3 & T4) L X M.
  destruct (mk_gates s K) as (G3 & G4 & Hs & Hg). pose proof (wf_network _ (reachable_wf _ R)) as W.
  assert (R3 : root s m 3) by (split; assumption). assert (R4 : root s m 4) by (split; assumption).
  assert (S : shaped s m) by (apply mk_shaped; assumption).
  do 3 (split; [assumption|]). split; [exact S|]. split.
  - exists cbrute. split; [apply cbrute_correct|]. split; [apply cbrute_correct|exact X].
  - intros solve Hsat Hcomp. destruct (ck_decides s m solve Hsat Hcomp W A C S M) as (b & E & H & _). rewrite E. f_equal. apply H.
    apply (mk_same s m); try assumption; rewrite K; reflexivity.
Qed.
Print Assumptions C57_converse_refuted.
