(* C23, C24: AND balancing. *)
From Coq Require Import Sorting.Sorted.
From stdpp Require Import sorting.
From Verif Require Import Base Aig AigSem AigHash AigProofs AigApi AigReach Demo Topo TopoProofs Clean NetProofs CleanProofs
  Depth DepthProofs NetDemo Cnf PropNet Balance BalanceProofs.

(* ---- C23: balance_and ---- *)
(* Every acyclic combinational network is balanced into one with the same number
   of inputs and outputs whose outputs compute the same functions.  The
   condition on networks without inputs excludes gates over constants, which
   no creation call makes. *)
Theorem C23_balance_preserves nb srt s : 0 < nb -> sorts_by_level srt -> network s -> is_combinational s = true ->
  (npi s = 0 -> forall n, ~ fanin s n 0) ->
  exists d, balance_and srt nb s = Some d /\ reachable d /\ is_combinational d = true /\
    npi d = npi s /\ npo d = npo s /\
    forall env l, computes s env l <-> computes d env l.
Proof.
  intros Hnb Hsrt W Hc Hz. apply bool_decide_eq_true in Hc as [Hci Hco].
  assert (Hcomb : npi s = length (ins s)) by done. assert (Hzero : npi s <> 0 \/ forall n, ~ fanin s n 0).
  { destruct (decide (npi s = 0)); [right; by apply Hz|by left]. }
  destruct (net_rank s W) as (rank & Hrank & Hbound).
  destruct (balance_init_spec s rank W Hbound Hcomb Hzero nb Hnb) as (x & Ex & Hx & H1 & H2 & H3 & H4).
  pose proof (balance_outputs srt s rank Hsrt W Hrank Hbound Hcomb Hzero x Hx H1 H2 H3 H4) as Hw.
  apply wp_elim in Hw as (u & y & Ey & Hr & Hnpi & Hli & Hnpo & HF).
  assert (Hlp : length (pos s) = npo s) by (unfold pos; rewrite take_length; lia).
  assert (Hlo : length (outs y.1.1) = npo s) by (rewrite <- Hlp; symmetry; by eapply Forall2_length).
  destruct (C20_cleanup_preserves nb y.1.1 Hnb) as (d & Ed & Hrd & Hdpi & Hdpo & Hdc & Hcomp).
  { by apply wf_network, reachable_wf. }
  { apply bool_decide_eq_true_2. lia. }
  exists d. unfold balance_and. rewrite Ex. cbn [mbind option_bind]. rewrite Ey. cbn [mbind option_bind].
  split; [done|]. split; [done|]. split; [done|]. split; [congruence|]. split; [congruence|].
  assert (Hdir : forall env l, computes s env l -> computes y.1.1 env l).
  { intros env l (v & V & ->). exists (ev y.1.1 env). split; [by apply ev_valuation, reachable_wf|].
    assert (pos y.1.1 = outs y.1.1) as -> by (unfold pos; apply firstn_all2; lia).
    clear -HF V. induction HF as [|f g l r [_ H] HF IH]; [done|]. cbn. rewrite (H env v V). by f_equal. }
  intros env l. rewrite <- Hcomp. split; [apply Hdir|]. intros Hd.
  destruct (net_valuation s env W) as [v V].
  assert (Hs : computes s env (map (sval v) (pos s))) by (by exists v).
  by rewrite (computes_unique y.1.1 env l _ (wf_network _ (reachable_wf _ Hr)) Hd (Hdir _ _ Hs)).
Qed.
Print Assumptions C23_balance_preserves.

(* for networks made by the creation calls *)
Theorem C23_balance_reachable nb srt s : 0 < nb -> sorts_by_level srt -> reachable s -> is_combinational s = true ->
  exists d, balance_and srt nb s = Some d /\ reachable d /\ is_combinational d = true /\
    npi d = npi s /\ npo d = npo s /\
    forall env l, computes s env l <-> computes d env l.
Proof.
  intros Hnb Hsrt Hr Hc. apply C23_balance_preserves; try done; [by apply wf_network, reachable_wf|].
  intros _ n (a & b & E & Hn & Hab & Hm). destruct (wf_gate _ (reachable_wf _ Hr) _ _ _ E Hab) as (Ha & Hb & _). destruct Hm; lia.
Qed.
Print Assumptions C23_balance_reachable.

(* a sorting function *)
#[local] Instance level_order_dec a b : Decision (level_order a b).
Proof. unfold level_order. apply _. Defined.
#[local] Instance level_order_trans : Transitive level_order.
Proof. intros [a f] [b g] [c h]. unfold level_order. cbn. lia. Qed.
#[local] Instance level_order_total : Total level_order.
Proof. intros [a f] [b g]. unfold level_order. cbn. lia. Qed.
Definition level_sort : list (nat * signal) -> list (nat * signal) := merge_sort level_order.
Lemma level_sort_sorts : sorts_by_level level_sort.
Proof. intros l. split; [symmetry; apply merge_sort_Permutation|apply (Sorted_merge_sort level_order)]. Qed.

(* A chain of four ANDs over five inputs, a gate shared by two of them, a
   contradictory gate and an output that repeats an input of its supergate. *)
Definition chain : aig := build
  [OpPi; OpPi; OpPi; OpPi; OpPi;
   OpAnd (Sig 1 false) (Sig 2 false); OpAnd (Sig 6 false) (Sig 3 true);
   OpAnd (Sig 7 false) (Sig 4 false); OpAnd (Sig 8 false) (Sig 5 false);
   OpAnd (Sig 3 false) (Sig 4 false); OpAnd (Sig 3 false) (Sig 6 true); OpAnd (Sig 11 false) (Sig 3 true);
   OpAnd (Sig 10 false) (Sig 4 false);
   OpPo (Sig 9 false); OpPo (Sig 12 true); OpPo (Sig 13 false); OpPo (Sig 1 true); OpPo (Sig 0 true)].
Definition chain_depth (s : aig) : option nat := v ← update_levels unit_cost false s (repeat 0 (size s)) 0; Some (dv_depth v).
Lemma chain_reachable : reachable chain.
Proof. apply build_reachable. vm_compute. reflexivity. Qed.
Example C23_nonvacuous : reachable chain /\ is_combinational chain = true /\ chain_depth chain = Some 4 /\
  (d ← balance_and level_sort 1 chain; chain_depth d) = Some 3.
Proof. split; [apply chain_reachable|]. vm_compute. done. Qed.
Example C23_nonvacuous_skewed : network skewed /\ is_combinational skewed = true /\ npi skewed <> 0.
Proof. split; [by apply (net_check_sound _ skewed_rank)|]. done. Qed.

(* Registers are not supported: an output driven by a register output fails the
   assertion of get_balance_cone. *)
Definition seqnet : aig := build [OpPi; OpRo; OpAnd (Sig 1 false) (Sig 2 false); OpPo (Sig 3 false); OpRi (Sig 3 false) 0%Z].
Theorem C23_sequential_refuted : reachable seqnet /\ balance_and level_sort 1 seqnet = None.
Proof. split; [apply build_reachable; vm_compute; reflexivity|]. vm_compute. reflexivity. Qed.
Print Assumptions C23_sequential_refuted.

(* So does a gate over the constant in a network without inputs: is_pi reports
   the constant node as an input only if there are inputs. *)
Definition constgate : aig :=
  Aig [(Sig 0 false, Sig 0 false); (Sig 0 false, Sig 0 true)] [0; 0] [1; 1]%N [false; false] [] [Sig 1 false] 0 1 [] [0] 0%N.
Theorem C23_constant_gate_refuted : network constgate /\ is_combinational constgate = true /\
  balance_and level_sort 1 constgate = None.
Proof. split; [by apply (net_check_sound _ (fun n => n))|]. split; [done|]. vm_compute. reflexivity. Qed.
Print Assumptions C23_constant_gate_refuted.

(* ---- C24: simplification of supergates ---- *)
(* sorting, de-duplicating and contradiction checking *)
Theorem C24_unify l : l <> [] ->
  (balance_unify l = [] <-> exists f, f ∈ l /\ snot f ∈ l) /\
  NoDup (balance_unify l) /\
  (balance_unify l <> [] -> forall f, f ∈ balance_unify l <-> f ∈ l) /\
  forall v, (forall f, f ∈ l -> sval v f = true) <->
            (balance_unify l <> [] /\ forall f, f ∈ balance_unify l -> sval v f = true).
Proof.
  intros Hl. destruct (unify_cases l) as [[E [?|(f & H1 & H2)]]|(_ & Hne & Hnd & Hin & Hno)]; [done| |].
  - rewrite E. split; [split; [by exists f|done]|]. split; [constructor|]. split; [done|].
    intros v. split; [|by intros []]. intros H. pose proof (H _ H1) as E1. pose proof (H _ H2) as E2.
    rewrite sval_snot, E1 in E2. done.
  - split; [split; [done|intros (f & H1 & H2); exfalso; by apply (Hno f)]|]. split; [done|]. split; [done|].
    intros v. split; [intros H; split; [done|]|intros [_ H]]; intros f Hf; apply H; by apply Hin.
Qed.
Print Assumptions C24_unify.

(* the inputs collected for a gate: their conjunction is the gate, an empty
   list stands for constant false *)
Theorem C24_supergate s n : network s -> is_combinational s = true -> (npi s = 0 -> forall n, ~ fanin s n 0) ->
  is_gate s n ->
  exists l, get_balance_cone s n = Some l /\ NoDup l /\ (forall f, f ∈ l -> valid s f /\ tc (fanin s) n (sidx f)) /\
    (forall f, f ∈ l -> snot f ∉ l) /\
    forall env v, valuation s env v ->
      (v n = true <-> l <> [] /\ forall f, f ∈ l -> sval v f = true).
Proof.
  intros W Hc Hz Hg. apply bool_decide_eq_true in Hc as [Hci _]. destruct (net_rank s W) as (rank & Hrank & Hbound).
  assert (Hzero : npi s <> 0 \/ forall n, ~ fanin s n 0).
  { destruct (decide (npi s = 0)); [right; by apply Hz|by left]. }
  destruct (get_balance_cone_spec s rank W Hrank (eq_sym Hci) Hzero n Hg (Hbound n)) as (l & El & Hl & Hnd & Hno & HV).
  exists l. split; [done|]. split; [done|]. rewrite Forall_forall in Hl.
  split; [intros f Hf; by destruct (Hl f Hf) as (? & _ & ?)|]. split; [done|].
  intros env v V. rewrite (HV env v V). destruct l as [|g l]; [split; [done|by intros []]|]. rewrite conj_true.
  split; [by intros H; split|by intros [_ H]].
Qed.
Print Assumptions C24_supergate.

(* pairing two signals of a supergate: the signals left stand for the same
   conjunction, whatever the levels are *)
Theorem C24_push_unique x super f : reachable x.1 -> length (dv_lev x.2) = size x.1 ->
  Forall (valid x.1) super -> valid x.1 f ->
  exists l, push_unique_by_level x super f = Some l /\ (NoDup super -> NoDup l) /\
    forall g, g ∈ l <-> g = f \/ g ∈ super.
Proof.
  intros Hr Hl Hs Hf. unfold push_unique_by_level. case_decide as Hin.
  - exists super. split; [done|]. split; [done|]. intros g. split; [by right|intros [->|?]; done].
  - assert (Hs' : all_valid x.1 (super ++ [f])) by (apply Forall_app; by repeat constructor).
    destruct (bubble_some x (length super) (super ++ [f]) (Logic.conj Hr Hl) Hs') as (l & -> & Hp); [rewrite app_length; cbn; lia|].
    exists l. split; [done|]. split.
    + intros Hnd. rewrite <- Hp. apply NoDup_app. split; [done|]. split; [|apply NoDup_singleton].
      intros g Hg ->%elem_of_list_singleton. done.
    + intros g. rewrite <- Hp, elem_of_app, elem_of_list_singleton. tauto.
Qed.
Print Assumptions C24_push_unique.

Example C24_nonvacuous : balance_unify [Sig 3 true; Sig 1 false; Sig 3 true; Sig 2 false] = [Sig 1 false; Sig 2 false; Sig 3 true] /\
  balance_unify [Sig 3 true; Sig 1 false; Sig 3 false] = [] /\ is_gate chain 9 /\
  get_balance_cone chain 9 = Some [Sig 3 true; Sig 4 false; Sig 5 false; Sig 6 false] /\
  get_balance_cone chain 12 = Some [] /\ get_balance_cone chain 13 = Some [Sig 3 false; Sig 4 false].
Proof. split; [vm_compute; done|]. split; [vm_compute; done|]. split; [|vm_compute; done]. exists (Sig 5 false), (Sig 8 false). vm_compute. done. Qed.
