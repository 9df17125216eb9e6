(* C42: simulation. *)
From Verif Require Import Base Aig AigSem AigHash AigProofs AigApi AigReach Demo Clean NetProofs CleanProofs NetDemo
  Tt TtProofs TtCache Klut KlutSem KlutProofs Cnf Subst SubstProofs PropSubst PropKlut Sim SimProofs.

(* networks built by the creation functions are in order *)
Theorem C42_created_in_order s : reachable s ->
  (forall n, (N.of_nat (references s n) < 2 ^ 31)%N) -> network s /\ in_order s.
Proof.
  intros R Hs. assert (W : network s) by (apply wf_network; by apply reachable_wf). split; [done|].
  intros n m Hf Hd. pose proof (net_gate _ W n m Hf) as Hm. split; [|by apply never_dead].
  destruct Hf as (a & b & Ek & Hn & Hab & [->| ->]); destruct (topological s n a b R Ek Hab); lia.
Qed.
Print Assumptions C42_created_in_order.

(* the outputs refer to nodes that have not been deleted *)
Definition live_outputs (s : aig) : Prop := forall f, f ∈ pos s -> is_gate s (sidx f) -> is_dead s (sidx f) = Some false.
(* nodes whose values are simulated *)
Definition shown (s : aig) (n : nat) : Prop := n < size s /\ (is_gate s n -> is_dead s n = Some false).

(* Boolean simulation computes for every node and output the value of the network
   under the assignment to the primary inputs, registers being false. *)
Theorem C42_bool s a : network s -> in_order s -> live_outputs s -> npi s <= length a ->
  exists vals os, simulate_nodes_bool a s = Some vals /\ simulate_bool a s = Some os /\
    forall v, valuation s (inputs_of s (fun k => default false (a !! k))) v ->
      (forall n, shown s n -> vals !! n = Some (v n)) /\ os = map (sval v) (pos s).
Proof.
  intros W Ho Hl Ha.
  destruct (sim_nodes_spec (X := unit) (fun b : bool => b) (fun i => a !! i) bool_gate false (fun _ => True) (fun u _ => u)
    (fun _ => inputs_of s (fun k => default false (a !! k))) s W Ho I) as (vals & E & _ & HV); try done.
  - intros i Hi. destruct (lookup_lt_is_Some_2 a i) as [u Hu]; [lia|]. exists u. split; [done|]. split; [done|]. intros _.
    unfold inputs_of. rewrite decide_True by done. by rewrite Hu.
  - intros k u1 u2 _ _. eexists. split; [reflexivity|]. done.
  - right. split; [done|]. split; [done|]. intros _ i Hi. unfold inputs_of. rewrite decide_False; [done|]. apply Nat.lt_nge. lia.
  - destruct (sim_outputs_spec (X := unit) (fun b : bool => b) (fun i => a !! i) negb bool_gate false (fun _ => True) (fun u _ => u)
      (fun _ => inputs_of s (fun k => default false (a !! k))) s vals W Hl) as (os & Eo & _ & HO); try done.
    exists vals, os. split; [done|]. split; [done|]. intros v V. split.
    + intros n [Hn Hd]. destruct (HV n Hn Hd) as (u & -> & _ & Hu). by rewrite (Hu Datatypes.tt v V).
    + specialize (HO Datatypes.tt v V). by rewrite map_id in HO.
Qed.
Print Assumptions C42_bool.

(* the word simulator reads input i from bit i, for at most 64 inputs *)
Theorem C42_word s w : network s -> in_order s -> live_outputs s -> npi s <= 64 ->
  exists vals os, simulate_nodes_word w s = Some vals /\ simulate_word w s = Some os /\
    forall v, valuation s (inputs_of s (fun k => N.testbit w (N.of_nat k))) v ->
      (forall n, shown s n -> vals !! n = Some (v n)) /\ os = map (sval v) (pos s).
Proof.
  intros W Ho Hl Ha.
  destruct (sim_nodes_spec (X := unit) (fun b : bool => b) (word_pi w) bool_gate false (fun _ => True) (fun u _ => u)
    (fun _ => inputs_of s (fun k => N.testbit w (N.of_nat k))) s W Ho I) as (vals & E & _ & HV); try done.
  - intros i Hi. unfold word_pi. rewrite decide_True by lia. eexists. split; [reflexivity|]. split; [done|]. intros _.
    unfold inputs_of. by rewrite decide_True by done.
  - intros k u1 u2 _ _. eexists. split; [reflexivity|]. done.
  - right. split; [done|]. split; [done|]. intros _ i Hi. unfold inputs_of. rewrite decide_False; [done|]. apply Nat.lt_nge. lia.
  - destruct (sim_outputs_spec (X := unit) (fun b : bool => b) (word_pi w) negb bool_gate false (fun _ => True) (fun u _ => u)
      (fun _ => inputs_of s (fun k => N.testbit w (N.of_nat k))) s vals W Hl) as (os & Eo & _ & HO); try done.
    exists vals, os. split; [done|]. split; [done|]. intros v V. split.
    + intros n [Hn Hd]. destruct (HV n Hn Hd) as (u & -> & _ & Hu). by rewrite (Hu Datatypes.tt v V).
    + specialize (HO Datatypes.tt v V). by rewrite map_id in HO.
Qed.
Print Assumptions C42_word.

(* Truth-table simulation computes tables over nvars variables, variable i being
   primary input i: entry x of a table is the value of the network under x.  With
   static tables registers are false; with dynamic tables there must be none. *)
Lemma tt_sim s d nvars : network s -> in_order s -> live_outputs s -> npi s <= nvars ->
  (npi s = length (ins s) \/ d = static_default nvars) ->
  exists vals os, simulate_nodes_tt d nvars s = Some vals /\ simulate_tt d nvars s = Some os /\
    (forall n, shown s n -> exists t, vals !! n = Some t /\ tt_wf t /\ nv t = nvars) /\
    Forall (fun t => tt_wf t /\ nv t = nvars) os /\
    forall x v, valuation s (inputs_of s x) v ->
      (forall n t, shown s n -> vals !! n = Some t -> tt_eval t x = v n) /\
      map (fun t => tt_eval t x) os = map (sval v) (pos s).
Proof.
  intros W Ho Hl Ha Hd. set (good := fun t => tt_wf t /\ nv t = nvars).
  destruct (sim_nodes_spec (X := nat -> bool) (tt_const nvars) (tt_pi nvars) tt_gate d good tt_eval (inputs_of s) s W Ho) as (vals & E & _ & HV).
  - split; [apply const_wf|done].
  - intros x. apply eval_const.
  - intros i Hi. unfold tt_pi. rewrite decide_True by lia. eexists. split; [reflexivity|]. split; [split; [apply var_wf|done]|].
    intros x. rewrite eval_var by lia. unfold inputs_of. by rewrite decide_True by done.
  - intros k u1 u2 [W1 N1] [W2 N2]. unfold tt_gate. rewrite decide_True by congruence. eexists. split; [reflexivity|].
    split; [split; [apply and_wf; try by apply not_if_wf|]|].
    + rewrite !nv_not_if. congruence.
    + cbn. by rewrite nv_not_if.
    + intros x. rewrite eval_and; [|by apply not_if_wf|by apply not_if_wf|rewrite !nv_not_if; congruence].
      by rewrite !eval_not_if.
  - destruct Hd as [Hd| ->]; [by left|]. right. split; [split; [apply const_wf|done]|]. split; [intros x; apply eval_const|].
    intros x i Hi. unfold inputs_of. rewrite decide_False; [done|]. apply Nat.lt_nge. lia.
  - destruct (sim_outputs_spec (X := nat -> bool) (tt_const nvars) (tt_pi nvars) tt_not tt_gate d good tt_eval (inputs_of s) s vals W Hl) as (os & Eo & Go & HO); try done.
    + intros u [Wu Nu]. split; [split; [by apply not_wf|done]|]. intros x. by apply eval_not.
    + exists vals, os. split; [done|]. split; [done|]. split; [|split; [done|]].
      * intros n [Hn Hdn]. destruct (HV n Hn Hdn) as (u & Hu & [? ?] & _). eauto.
      * intros x v V. split; [|by apply HO].
        intros n t [Hn Hdn] Ht. destruct (HV n Hn Hdn) as (u & Hu & _ & Ou). rewrite Ht in Hu. injection Hu as <-. by apply Ou.
Qed.
Theorem C42_static_tt s nvars : network s -> in_order s -> live_outputs s -> npi s <= nvars ->
  exists vals os, simulate_nodes_tt (static_default nvars) nvars s = Some vals /\
    simulate_tt (static_default nvars) nvars s = Some os /\
    (forall n, shown s n -> exists t, vals !! n = Some t /\ tt_wf t /\ nv t = nvars) /\
    Forall (fun t => tt_wf t /\ nv t = nvars) os /\
    forall x v, valuation s (inputs_of s x) v ->
      (forall n t, shown s n -> vals !! n = Some t -> tt_eval t x = v n) /\
      map (fun t => tt_eval t x) os = map (sval v) (pos s).
Proof. intros. apply tt_sim; auto. Qed.
Print Assumptions C42_static_tt.
Theorem C42_dynamic_tt s nvars : network s -> in_order s -> live_outputs s -> npi s <= nvars -> npi s = length (ins s) ->
  exists vals os, simulate_nodes_tt dynamic_default nvars s = Some vals /\
    simulate_tt dynamic_default nvars s = Some os /\
    (forall n, shown s n -> exists t, vals !! n = Some t /\ tt_wf t /\ nv t = nvars) /\
    Forall (fun t => tt_wf t /\ nv t = nvars) os /\
    forall x v, valuation s (inputs_of s x) v ->
      (forall n t, shown s n -> vals !! n = Some t -> tt_eval t x = v n) /\
      map (fun t => tt_eval t x) os = map (sval v) (pos s).
Proof. intros. apply tt_sim; auto. Qed.
Print Assumptions C42_dynamic_tt.

(* hence the simulators agree: entry x of the simulated table is the result of
   the Boolean simulation of x *)
Theorem C42_tt_agrees s nvars a vals bvals n t : network s -> in_order s -> live_outputs s -> npi s <= nvars ->
  npi s <= length a -> simulate_nodes_tt (static_default nvars) nvars s = Some vals -> simulate_nodes_bool a s = Some bvals ->
  shown s n -> vals !! n = Some t -> bvals !! n = Some (tt_eval t (fun k => default false (a !! k))).
Proof.
  intros W Ho Hl Hn Ha E1 E2 Hs Ht. destruct (C42_static_tt s nvars W Ho Hl Hn) as (vals' & os & E1' & _ & _ & _ & H).
  rewrite E1 in E1'. injection E1' as <-.
  destruct (C42_bool s a W Ho Hl Ha) as (bvals' & os' & E2' & _ & H'). rewrite E2 in E2'. injection E2' as <-.
  destruct (net_valuation s (inputs_of s (fun k => default false (a !! k))) W) as [v V].
  destruct (H _ v V) as [H1 _]. destruct (H' v V) as [H2 _]. rewrite (H2 n Hs). f_equal. symmetry. by apply H1.
Qed.
Print Assumptions C42_tt_agrees.

(* ---- LUT networks ---- *)
(* truth-table simulation of a LUT network computes its meaning *)
Theorem C42_klut_tt s nvars : kreachable s -> knpi s <= nvars ->
  exists vals os, ksimulate_nodes_tt (static_default nvars) nvars s = Some vals /\
    ksimulate_tt (static_default nvars) nvars s = Some os /\
    (forall n, n < ksize s -> exists t, vals !! n = Some t /\ tt_wf t /\ nv t = nvars) /\
    forall x v, kvaluation s (kinputs_of s x) v ->
      (forall n t, vals !! n = Some t -> tt_eval t x = v n) /\
      map (fun t => tt_eval t x) os = map v (kpos s).
Proof.
  intros R Hp. pose proof (kreachable_wf s R) as W. pose proof (kreachable_full s R) as F.
  set (good := fun t => tt_wf t /\ nv t = nvars).
  destruct (ksim_nodes_spec (X := nat -> bool) id (tt_const nvars) (tt_pi nvars) (kcompute_tt s) (static_default nvars) good tt_eval
    (kinputs_of s) s W) as (vals & E & Hl & HV).
  - intros b. split; [split; [apply const_wf|done]|]. intros x. apply eval_const.
  - intros i Hi. unfold tt_pi. rewrite decide_True by lia. eexists. split; [reflexivity|]. split; [split; [apply var_wf|done]|].
    intros x. rewrite eval_var by lia. unfold kinputs_of. by rewrite decide_True by done.
  - intros n y f vs Hn Hy Hci Hf Wf Hnv Hlen Hgood.
    destruct vs as [|t0 vs]. { exfalso. apply (F n y Hn Hy Hci). by destruct (kch y). }
    destruct (kcompute_tt_spec s n y f (t0 :: vs) t0 Hy Hf Wf Hnv Hlen eq_refl) as (t & Et & Wt & Nt & Ot).
    pose proof Hgood as Hg0. apply Forall_cons in Hg0 as [[_ N0] _]. rewrite N0 in Nt, Ot.
    exists t. split; [done|]. split; [done|]. intros x v HF.
    unfold tt_eval at 1. rewrite Nt, Ot by apply idx_lt. apply eval_ext. intros k Hk. rewrite Hnv in Hk.
    destruct (lookup_lt_is_Some_2 (t0 :: vs) k) as [u Hu]; [lia|]. rewrite Hu. cbn [id].
    destruct (Forall2_lookup_l _ _ _ _ _ HF Hu) as (m & Hm & Eu). rewrite Hm, <- Eu. unfold tt_eval.
    rewrite Forall_forall in Hgood. by destruct (Hgood u (elem_of_list_lookup_2 _ _ _ Hu)) as [_ ->].
  - right. split; [split; [apply const_wf|done]|]. split; [intros x; apply eval_const|].
    intros x i Hi. unfold kinputs_of. rewrite decide_False; [done|]. apply Nat.lt_nge. lia.
  - assert (HO : exists os, opt_map (fun f => vals !! f) (kpos s) = Some os /\ forall x v, kvaluation s (kinputs_of s x) v ->
      map (fun t => tt_eval t x) os = map v (kpos s)).
    { assert (Hb : forall f, f ∈ kpos s -> f < ksize s).
      { intros f Hf. pose proof (kw_out s W) as HO. rewrite Forall_forall in HO. apply HO.
        unfold kpos in Hf. apply elem_of_list_lookup in Hf as [i Hi]. apply lookup_take_Some in Hi as [Hi _]. by eapply elem_of_list_lookup_2. }
      induction (kpos s) as [|f l IH]; [by exists []|]. cbn [opt_map].
      destruct (HV f) as (u & -> & _ & Ou); [apply Hb; constructor|]. cbn [mbind option_bind].
      destruct IH as (os & -> & Oos); [intros g Hg; apply Hb; by constructor|]. cbn [mbind option_bind].
      eexists. split; [reflexivity|]. intros x v V. cbn [map]. f_equal; [|by apply Oos]. apply Ou. by apply kvaluation_by_id. }
    destruct HO as (os & Eo & HO). exists vals, os. split; [done|]. split.
    { unfold ksimulate_tt, ksimulate_nodes_tt. rewrite E. done. }
    split; [intros n Hn; destruct (HV n Hn) as (u & Hu & [? ?] & _); eauto|].
    intros x v V. split; [|by apply HO]. intros n t Ht. assert (Hn : n < ksize s) by (rewrite <- Hl; by eapply lookup_lt_Some).
    destruct (HV n Hn) as (u & Hu & _ & Ou). rewrite Ht in Hu. injection Hu as <-. apply Ou. by apply kvaluation_by_id.
Qed.
Print Assumptions C42_klut_tt.

(* Boolean simulation of a LUT network computes the meaning of the network in
   which every LUT sees its inputs in reverse order *)
Theorem C42_klut_bool_reversed s a : kreachable s -> knpi s <= length a ->
  (forall n x, kn s !! n = Some x -> length (kch x) <= 32) ->
  exists vals, ksimulate_nodes_bool a s = Some vals /\
    forall v, kvaluation_by (@rev nat) s (kinputs_of s (fun k => default false (a !! k))) v ->
      forall n, n < ksize s -> vals !! n = Some (v n).
Proof.
  intros R Hp H32. pose proof (kreachable_wf s R) as W.
  destruct (ksim_nodes_spec (X := unit) (@rev nat) (fun b : bool => b) (fun i => a !! i) (kcompute_bool s) false (fun _ => True) (fun u _ => u)
    (fun _ => kinputs_of s (fun k => default false (a !! k))) s W) as (vals & E & Hl & HV); try done.
  - intros i Hi. destruct (lookup_lt_is_Some_2 a i) as [u Hu]; [lia|]. exists u. split; [done|]. split; [done|]. intros _.
    unfold kinputs_of. rewrite decide_True by done. by rewrite Hu.
  - intros n y f vs Hn Hy Hci Hf Wf Hnv Hlen _. eexists. split; [eapply kcompute_bool_spec; try done; [congruence|]|].
    { rewrite Hlen. by apply (H32 n). }
    split; [done|]. intros _ v HF. apply eval_ext. intros k Hk.
    apply Forall2_reverse in HF. rewrite <- !rev_alt in HF || idtac.
    assert (HF' : Forall2 (fun w m => w = v m) (rev vs) (rev (kch y))).
    { clear -HF. rewrite !rev_alt. unfold reverse in HF. exact HF. }
    destruct (rev vs !! k) as [w|] eqn:Ew.
    + destruct (Forall2_lookup_l _ _ _ _ _ HF' Ew) as (m & -> & ->). done.
    + apply lookup_ge_None in Ew. rewrite rev_length in Ew. lia.
  - right. split; [done|]. split; [done|]. intros _ i Hi. unfold kinputs_of. rewrite decide_False; [done|]. apply Nat.lt_nge. lia.
  - exists vals. split; [done|]. intros v V n Hn. destruct (HV n Hn) as (u & -> & _ & Hu). by rewrite (Hu Datatypes.tt v V).
Qed.
Print Assumptions C42_klut_bool_reversed.

(* which is not the meaning of the network *)
Theorem C42_klut_bool_refuted :
  ~ (forall s a vals v n, kreachable s -> length a = knpi s -> ksimulate_nodes_bool a s = Some vals ->
       kvaluation s (kinputs_of s (fun k => default false (a !! k))) v -> n < ksize s -> vals !! n = Some (v n)).
Proof.
  intros H. assert (R : kreachable demo_lt) by (apply kdemo_reachable; vm_compute; by eexists).
  destruct (kvaluation_exists demo_lt (kinputs_of demo_lt (fun k => default false ([false; true] !! k))) (kreachable_wf _ R)) as [v V].
  specialize (H demo_lt [false; true] [false; true; false; true; false] v 4 R eq_refl).
  assert (E : Some false = Some (v 4)).
  { apply H; [vm_compute; reflexivity|done|vm_compute; lia]. }
  assert (V4 : v 4 = true).
  { rewrite (kv_gate _ _ _ V 4 (KNode [2; 3] 8 0 0) (tt_word 2 0x4)); try (vm_compute; reflexivity); [|lia].
    assert (v 2 = false) by (by rewrite (kv_in _ _ _ V 0 2)). assert (v 3 = true) by (by rewrite (kv_in _ _ _ V 1 3)).
    rewrite (eval_ext _ _ (fun k => match k with 1 => true | _ => false end)); [vm_compute; reflexivity|].
    intros [|[|k]] Hk; cbn; [done|done|cbn in Hk; lia]. }
  rewrite V4 in E. done.
Qed.
Print Assumptions C42_klut_bool_refuted.

(* ---- patterns ---- *)
(* Whatever the history of additions of patterns, simulations of nodes or of the
   network and removals of entries, every table holds the values of its node for
   the first patterns. *)
Theorem C42_patterns wrap s ps sim m n t : network s -> session wrap s ps sim m ->
  m !! n = Some (Some t) -> correct s ps t n.
Proof. intros W H Hn. destruct (session_inv wrap s ps sim m W H) as [_ [_ He]]. by destruct (He n t Hn). Qed.
Print Assumptions C42_patterns.

(* after simulate_node the table of the node is complete *)
Theorem C42_patterns_node wrap s ps sim m n m' : network s -> session wrap s ps sim m ->
  simulate_node s sim n m = Some m' ->
  exists t, m' !! n = Some (Some t) /\ pbits t = length ps.
Proof.
  intros W H E. destruct (session_inv wrap s ps sim m W H) as [R He].
  destruct (simulate_node_ok s ps sim n m m' W R He E) as (_ & (t & Ht & B) & _). exists t. split; [done|]. rewrite B. apply R.
Qed.
Print Assumptions C42_patterns_node.

(* after simulate_nodes the tables of the constant, the primary inputs and all
   gates are complete; a simulation of whole tables leaves entries alone, so that
   there must be none or only complete ones *)
Theorem C42_patterns_all wrap s ps sim m whole m' : network s -> session wrap s ps sim m ->
  simulate_nodes_ptt s sim whole m = Some m' ->
  (whole = true -> forall n t, live_gate s n -> m !! n = Some (Some t) -> pbits t = length ps) ->
  forall n, n = 0 \/ n ∈ pis s \/ live_gate s n -> exists t, m' !! n = Some (Some t) /\ pbits t = length ps.
Proof.
  intros W H E Hw n Hn. destruct (session_inv wrap s ps sim m W H) as [R He].
  destruct (simulate_nodes_ptt_ok s ps sim whole m m' W R He E) as (_ & HF). rewrite <- (proj1 R) in *.
  destruct HF as (F0 & Fp & Fg).
  - intros Hwt x Hx. destruct (lookup_lt_is_Some_2 m x) as [[t|] Ht].
    + rewrite (proj1 He). destruct Hx as [(a & b & Ek & _) _]. by eapply lookup_lt_Some.
    + right. exists t. split; [done|]. by apply (Hw Hwt x t).
    + by left.
  - destruct Hn as [->|[Hn|Hn]]; [exact F0|by apply Fp|by apply Fg].
Qed.
Print Assumptions C42_patterns_all.

(* simulate_nodes succeeds on networks without registers as long as all tables
   lack bits of the last block only *)
Theorem C42_patterns_total wrap s ps sim m whole : network s -> npi s = length (ins s) -> session wrap s ps sim m ->
  (forall n t, m !! n = Some (Some t) -> recent sim t) ->
  (whole = false -> forall n, live_gate s n -> exists t, m !! n = Some (Some t)) ->
  exists m', simulate_nodes_ptt s sim whole m = Some m'.
Proof.
  intros W Hreg H Hr Hw. destruct (session_inv wrap s ps sim m W H) as [R He]. by apply (simulate_nodes_total s ps).
Qed.
Print Assumptions C42_patterns_total.

(* ---- examples ---- *)
Definition order_check (s : aig) : bool :=
  forallb (fun n => match ks s !! n with
    | Some (a, b) => bool_decide (n = 0) || bool_decide (a = b) || negb (bool_decide (is_dead s n = Some false)) ||
        (bool_decide (sidx a < n) && bool_decide (sidx b < n) &&
         bool_decide (is_dead s (sidx a) = Some false) && bool_decide (is_dead s (sidx b) = Some false))
    | None => true end) (seq 0 (size s)).
Lemma order_check_sound s : order_check s = true -> in_order s.
Proof.
  unfold order_check. rewrite forallb_forall. intros H n m (a & b & Ek & Hn & Hab & Hm) Hd.
  specialize (H n). rewrite Ek in H. rewrite (bool_decide_false (n = 0)), (bool_decide_false (a = b)), (bool_decide_true (is_dead s n = Some false)) in H by done.
  cbn in H. rewrite !andb_true_iff, !bool_decide_eq_true in H.
  destruct H as [[[H1 H2] H3] H4]; [apply in_seq; split; [lia|]; apply lookup_lt_Some in Ek; unfold size; lia|].
  destruct Hm as [->| ->]; done.
Qed.
Lemma live_outputs_check s : forallb (fun f => bool_decide (is_dead s (sidx f) = Some false)) (pos s) = true -> live_outputs s.
Proof. rewrite forallb_forall. intros H f Hf _. apply elem_of_list_In in Hf. specialize (H f Hf). by apply bool_decide_eq_true in H. Qed.

(* three inputs, a register, complemented edges and outputs *)
Definition sim_demo : aig := build
  [OpPi; OpPi; OpPi; OpRo; OpAnd (a_ 1) (n_ 2); OpAnd (a_ 3) (n_ 4); OpAnd (n_ 5) (n_ 6); OpPo (n_ 7); OpPo (a_ 3); OpRi (a_ 5) 0].
Example C42_sim_nonvacuous : network sim_demo /\ in_order sim_demo /\ live_outputs sim_demo /\ npi sim_demo = 3 /\
  simulate_bool [true; false; true] sim_demo = Some [true; true] /\
  simulate_word 0x3 sim_demo = Some [false; false] /\
  simulate_tt (static_default 3) 3 sim_demo = Some [tt_word 3 0xf2; tt_word 3 0xf0].
Proof.
  split; [apply wf_network, reachable_wf, build_reachable; vm_compute; reflexivity|].
  split; [apply order_check_sound; vm_compute; reflexivity|]. split; [apply live_outputs_check; vm_compute; reflexivity|].
  repeat split; vm_compute; reflexivity.
Qed.

(* with dynamic tables and a register that feeds a gate simulation fails: the
   register has the table without variables *)
Theorem C42_dynamic_registers_refuted :
  exists s, reachable s /\ network s /\ in_order s /\ live_outputs s /\ npi s = 3 /\ simulate_nodes_tt dynamic_default 3 s = None.
Proof.
  exists sim_demo. split; [apply build_reachable; vm_compute; reflexivity|].
  destruct C42_sim_nonvacuous as (? & ? & ? & ? & _). repeat (split; [done|]). vm_compute. reflexivity.
Qed.
Print Assumptions C42_dynamic_registers_refuted.

(* On networks that are not in order the result can be wrong: after replacing 4
   by the younger equivalent 7, gate 5 is simulated before its fanin 7. *)
Definition late0 : aig := build
  [OpPi; OpPi; OpPi; OpAnd (a_ 1) (a_ 2); OpAnd (a_ 4) (a_ 3); OpPo (a_ 5); OpAnd (a_ 1) (n_ 2); OpAnd (a_ 1) (n_ 6)].
Definition late : aig := subst_result 5 4 (a_ 7) late0.
Lemma late_edited : edited late.
Proof.
  apply (edited_check _ _ _ _ [7; 1; 6; 2]); try (vm_compute; reflexivity).
  - apply edited_new, build_reachable. vm_compute. reflexivity.
  - intros env v V.
    pose proof (val_gate _ _ _ V 4 (a_ 1) (a_ 2) ltac:(vm_compute; reflexivity) ltac:(done) ltac:(done)) as H4.
    pose proof (val_gate _ _ _ V 6 (a_ 1) (n_ 2) ltac:(vm_compute; reflexivity) ltac:(done) ltac:(done)) as H6.
    pose proof (val_gate _ _ _ V 7 (a_ 1) (n_ 6) ltac:(vm_compute; reflexivity) ltac:(done) ltac:(done)) as H7.
    clear V. unfold sval in *. cbn in *. rewrite H4, H7, H6. by destruct (v 1), (v 2).
Qed.
Theorem C42_order_refuted : exists s a os v,
  edited s /\ network s /\ live_outputs s /\ npi s = length a /\ simulate_bool a s = Some os /\
  valuation s (inputs_of s (fun k => default false (a !! k))) v /\ os <> map (sval v) (pos s).
Proof.
  assert (W : network late).
  { apply (net_check_sound _ (fun n => match n with 5 => 8 | _ => n end)). vm_compute. reflexivity. }
  destruct (net_valuation late (inputs_of late (fun k => default false ([true; true; true] !! k))) W) as [v V].
  exists late, [true; true; true], [false], v. split; [apply late_edited|]. split; [done|].
  split; [apply live_outputs_check; vm_compute; reflexivity|]. split; [vm_compute; reflexivity|].
  split; [vm_compute; reflexivity|]. split; [done|].
  assert (E : pos late = [a_ 5]) by (vm_compute; reflexivity). rewrite E. cbn [map].
  assert (H1 : v 1 = true) by (rewrite (val_input _ _ _ V 0 1) by (vm_compute; reflexivity); vm_compute; reflexivity).
  assert (H2 : v 2 = true) by (rewrite (val_input _ _ _ V 1 2) by (vm_compute; reflexivity); vm_compute; reflexivity).
  assert (H3 : v 3 = true) by (rewrite (val_input _ _ _ V 2 3) by (vm_compute; reflexivity); vm_compute; reflexivity).
  pose proof (val_gate _ _ _ V 6 (a_ 1) (n_ 2) ltac:(vm_compute; reflexivity) ltac:(done) ltac:(done)) as H6.
  pose proof (val_gate _ _ _ V 7 (a_ 1) (n_ 6) ltac:(vm_compute; reflexivity) ltac:(done) ltac:(done)) as H7.
  pose proof (val_gate _ _ _ V 5 (a_ 3) (a_ 7) ltac:(vm_compute; reflexivity) ltac:(done) ltac:(done)) as H5.
  clear V. unfold sval in *. cbn [sidx scompl a_ n_] in *. rewrite H5, H7, H6, H1, H2, H3. done.
Qed.
Print Assumptions C42_order_refuted.

(* a LUT network with a three-input LUT and a register *)
Definition sim_klut : klut := kdemo [KPi; KPi; KRo; KLt 2 3; KIte 4 2 5; KNaryXor [2; 3; 6]; KPo 6; KPo 8].
Example C42_klut_nonvacuous : kreachable sim_klut /\ knpi sim_klut = 2 /\
  ksimulate_tt (static_default 2) 2 sim_klut = Some [tt_word 2 0x4; tt_word 2 0x2] /\
  (forall n x, kn sim_klut !! n = Some x -> length (kch x) <= 32).
Proof.
  split; [apply kdemo_reachable; vm_compute; by eexists|]. split; [done|]. split; [vm_compute; reflexivity|].
  intros n x Hx. assert (H : forallb (fun x => length (kch x) <=? 32) (kn sim_klut) = true) by (vm_compute; reflexivity).
  rewrite forallb_forall in H. apply elem_of_list_lookup_2, elem_of_list_In, H in Hx. by apply Nat.leb_le.
Qed.

(* sessions: no patterns, then patterns one by one *)
Definition no_patterns (npis : nat) : psim := Psim (repeat ptt_empty npis) 0.
Lemma no_patterns_represents npis : represents [] (no_patterns npis) npis.
Proof.
  split; [done|]. split; [apply repeat_length|]. split; [constructor|]. intros k t Hk.
  apply elem_of_list_lookup_2, elem_of_list_In, repeat_spec in Hk as ->. split; [done|]. split; [done|]. split; [intros i _; done|]. intros i p Hi. by rewrite lookup_nil in Hi.
Qed.
Fixpoint add_patterns (wrap : bool) (ps : list (list bool)) (sim : psim) : option psim :=
  match ps with [] => Some sim | p :: r => sim' ← add_pattern wrap p sim; add_patterns wrap r sim' end.
Lemma session_adds wrap s l ps sim m sim' : session wrap s ps sim m -> add_patterns wrap l sim = Some sim' -> session wrap s (ps ++ l) sim' m.
Proof.
  revert ps sim. induction l as [|p l IH]; intros ps sim H; cbn; [intros [= <-]; by rewrite app_nil_r|].
  intros (sim1 & E & E')%bind_Some. change (p :: l) with ([p] ++ l). rewrite (app_assoc ps [p] l). eapply IH; [|exact E']. by eapply ses_add.
Qed.

(* two patterns, a simulation, 62 further patterns, an incremental simulation,
   one more pattern, which starts a block, and the simulation of a node *)
Definition pat_demo : aig := build [OpPi; OpPi; OpAnd (a_ 1) (n_ 2); OpAnd (a_ 1) (n_ 3); OpPo (n_ 4)].
Definition pats1 : list (list bool) := [[true; false]; [true; true]].
Definition pats2 : list (list bool) := concat (repeat [[true; false]; [false; true]] 31).
Definition pats3 : list (list bool) := [[true; true]].
Example C42_patterns_nonvacuous : exists sim1 m1 sim2 m2 sim3 m3 t,
  network pat_demo /\ npi pat_demo = length (ins pat_demo) /\
  session true pat_demo pats1 sim1 (repeat None 5) /\ simulate_nodes_ptt pat_demo sim1 true (repeat None 5) = Some m1 /\
  session true pat_demo (pats1 ++ pats2) sim2 m1 /\ simulate_nodes_ptt pat_demo sim2 false m1 = Some m2 /\
  session true pat_demo ((pats1 ++ pats2) ++ pats3) sim3 m2 /\ simulate_node pat_demo sim3 4 m2 = Some m3 /\
  m3 !! 4 = Some (Some t) /\ pbits t = 65 /\ pbit t 0 = false /\ pbit t 1 = true /\ pbit t 62 = false /\ pbit t 64 = true.
Proof.
  assert (W : network pat_demo) by (apply wf_network, reachable_wf, build_reachable; vm_compute; reflexivity).
  assert (S0 : session true pat_demo [] (no_patterns 2) (repeat None 5)) by apply (ses_start true pat_demo _ _ (no_patterns_represents 2)).
  destruct (add_patterns true pats1 (no_patterns 2)) as [sim1|] eqn:E1; [|vm_compute in E1; discriminate E1].
  pose proof (session_adds true pat_demo pats1 [] _ _ sim1 S0 E1) as S1. cbn [app] in S1.
  vm_compute in E1. injection E1 as <-.
  match type of S1 with session _ _ _ ?s1 ?mm => destruct (simulate_nodes_ptt pat_demo s1 true mm) as [m1|] eqn:M1; [|vm_compute in M1; discriminate M1] end.
  pose proof (ses_nodes _ _ _ _ _ _ _ S1 M1) as S1'.
  pose proof M1 as M1c. vm_compute in M1c. injection M1c as <-.
  match type of S1' with session _ _ _ ?s1 ?mm => destruct (add_patterns true pats2 s1) as [sim2|] eqn:E2; [|vm_compute in E2; discriminate E2];
    pose proof (session_adds true pat_demo pats2 _ _ _ sim2 S1' E2) as S2 end.
  vm_compute in E2. injection E2 as <-.
  match type of S2 with session _ _ _ ?s1 ?mm => destruct (simulate_nodes_ptt pat_demo s1 false mm) as [m2|] eqn:M2; [|vm_compute in M2; discriminate M2] end.
  pose proof (ses_nodes _ _ _ _ _ _ _ S2 M2) as S2'.
  pose proof M2 as M2c. vm_compute in M2c. injection M2c as <-.
  match type of S2' with session _ _ _ ?s1 ?mm => destruct (add_patterns true pats3 s1) as [sim3|] eqn:E3; [|vm_compute in E3; discriminate E3];
    pose proof (session_adds true pat_demo pats3 _ _ _ sim3 S2' E3) as S3 end.
  vm_compute in E3. injection E3 as <-.
  match type of S3 with session _ _ _ ?s1 ?mm => destruct (simulate_node pat_demo s1 4 mm) as [m3|] eqn:M3; [|vm_compute in M3; discriminate M3] end.
  pose proof M3 as M3c. vm_compute in M3c. injection M3c as <-.
  do 7 eexists. split; [exact W|]. split; [vm_compute; reflexivity|]. split; [exact S1|]. split; [exact M1|]. split; [exact S2|].
  split; [exact M2|]. split; [exact S3|]. split; [exact M3|]. split; [reflexivity|]. repeat split; vm_compute; reflexivity.
Qed.

(* Adding the 64th pattern shifts by 2^32-1 whenever some input is true, which is
   undefined. *)
Theorem C42_add_pattern_refuted : exists ps sim, represents ps sim 1 /\ length ps = 63 /\ add_pattern false [true] sim = None.
Proof.
  destruct (add_patterns false (repeat [true] 63) (no_patterns 1)) as [sim|] eqn:E; [|vm_compute in E; discriminate E].
  exists (repeat [true] 63), sim. split; [|split; [done|]].
  - assert (G : forall l ps sim sim', represents ps sim 1 -> add_patterns false l sim = Some sim' -> represents (ps ++ l) sim' 1).
    { clear. induction l as [|p l IH]; intros ps sim sim' H; cbn; [intros [= <-]; by rewrite app_nil_r|].
      intros (sim1 & E & E')%bind_Some. change (p :: l) with ([p] ++ l). rewrite (app_assoc ps [p] l). eapply IH; [|exact E']. by eapply represents_add. }
    by apply (G _ [] (no_patterns 1) sim (no_patterns_represents 1)).
  - vm_compute in E. injection E as <-. vm_compute. reflexivity.
Qed.
Print Assumptions C42_add_pattern_refuted.
(* it is defined in all other cases *)
Theorem C42_add_pattern_total p sim ps npis : represents ps sim npis -> length p = npis ->
  S (length ps) mod 64 <> 0 \/ Forall (fun b => b = false) p ->
  exists sim', add_pattern false p sim = Some sim' /\ represents (ps ++ [p]) sim' npis.
Proof.
  intros R Hp Hm. pose proof R as (Hn & Hl & _ & H).
  assert (G : exists ts, add_bits false p (patterns sim) = Some ts).
  { assert (HB : Forall (fun t => pbits t = length ps) (patterns sim)).
    { apply Forall_forall. intros t [k Hk]%elem_of_list_lookup. by destruct (H k t Hk). }
    clear H R Hn. assert (El : length p = length (patterns sim)) by congruence. clear Hl Hp.
    revert Hm El HB. generalize (patterns sim) as ts. induction p as [|b p IH]; intros [|t ts] Hm El HB; cbn; try done; [eauto|].
    apply Forall_cons in HB as [B HB]. destruct (add_bit_total false b t) as [t' ->].
    { right. rewrite B. destruct Hm as [Hm|Hm]; [by right|left; by inversion Hm]. }
    cbn [mbind option_bind]. destruct (IH ts) as [ts' ->]; [|by injection El|done|cbn; eauto].
    destruct Hm as [Hm|Hm]; [by left|right; by inversion Hm]. }
  destruct G as [ts E]. assert (Ea : add_pattern false p sim = Some (Psim ts (npat sim + 1))) by (unfold add_pattern; by rewrite E).
  eexists. split; [exact Ea|]. by eapply represents_add.
Qed.
Print Assumptions C42_add_pattern_total.

(* an incremental simulation of tables that lag behind by more than a block fails *)
Theorem C42_stale_refuted : exists s ps sim m, network s /\ npi s = length (ins s) /\ session true s ps sim m /\
  (forall n, live_gate s n -> exists t, m !! n = Some (Some t)) /\ simulate_nodes_ptt s sim false m = None.
Proof.
  assert (W : network pat_demo) by (apply wf_network, reachable_wf, build_reachable; vm_compute; reflexivity).
  assert (S0 : session true pat_demo [] (no_patterns 2) (repeat None 5)) by apply (ses_start true pat_demo _ _ (no_patterns_represents 2)).
  destruct (add_patterns true pats1 (no_patterns 2)) as [sim1|] eqn:E1; [|vm_compute in E1; discriminate E1].
  pose proof (session_adds true pat_demo pats1 [] _ _ sim1 S0 E1) as S1. cbn [app] in S1.
  vm_compute in E1. injection E1 as <-.
  match type of S1 with session _ _ _ ?s1 ?mm => destruct (simulate_nodes_ptt pat_demo s1 true mm) as [m1|] eqn:M1; [|vm_compute in M1; discriminate M1] end.
  pose proof (ses_nodes _ _ _ _ _ _ _ S1 M1) as S1'.
  pose proof M1 as M1c. vm_compute in M1c. injection M1c as <-.
  match type of S1' with session _ _ _ ?s1 ?mm => destruct (add_patterns true (pats2 ++ pats3) s1) as [sim2|] eqn:E2; [|vm_compute in E2; discriminate E2];
    pose proof (session_adds true pat_demo _ _ _ _ sim2 S1' E2) as S2 end.
  vm_compute in E2. injection E2 as <-.
  do 4 eexists. split; [exact W|]. split; [vm_compute; reflexivity|]. split; [exact S2|]. split; [|vm_compute; reflexivity].
  intros n [(a & b & Ek & _ & _) _]. apply lookup_lt_Some in Ek.
  assert (E : length (ks pat_demo) = 5) by (vm_compute; reflexivity). rewrite E in Ek.
  do 5 (destruct n as [|n]; [eexists; vm_compute; reflexivity|]). lia.
Qed.
Print Assumptions C42_stale_refuted.
