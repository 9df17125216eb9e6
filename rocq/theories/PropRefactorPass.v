(* Property C53: the refactoring pass (include/operations/optimization/refactor.hpp). *)
From Verif Require Import Base Aig AigSem AigProofs AigApi AigReach Topo Clean NetProofs CleanProofs Demo Tt Factor Subst SubstProofs
  RefDeref Refactor RefactorPass RefactorProofs RefactorPassProofs RefactorInfoProofs CleanPartial PropRefactor PropSubst.

(* The reverse depth of a gate in use is one more than the length of the longest
   path down to it, so the required depth is not below the depth it has. *)
Theorem C53_reverse_depths s : network s -> exists m dep dmax, compute_reverse_depth_info s = Some m /\ compute_depth_info s = Some (dep, dmax) /\
  forall n, in_use s n -> is_gate s n -> exists k d, m n = Some (S k) /\ highest s n k /\ dep n = Some d /\ d <= dmax + 1 - S k /\ S k <= dmax.
Proof.
  intros W. destruct (reverse_ok s W) as (m & E & H). destruct (C45_depths s W) as (dep & dmax & Ed & Hd & _).
  exists m, dep, dmax. split; [done|]. split; [done|]. intros n Hn Hg. destruct (H n Hn (is_pi_gate s n Hg)) as (k & Ek & Hk).
  destruct (Hd n (or_introl Hn)) as (d & Edn & [[y Hy] Hmax] & _). exists k, d. split; [done|]. split; [done|]. split; [done|].
  destruct Hk as [(r & Hr & Hst) _]. destruct (Hd r (or_introl Hr)) as (dr & _ & [_ Hrl] & Hle).
  assert (k + d <= dr) by (apply Hrl; exists y; by eapply nsteps_trans).
  assert (1 <= d).
  { destruct Hg as (a & b & E' & Hz & Hab). apply Hmax. exists (sidx a). apply nsteps_once. exists a, b. auto. }
  lia.
Qed.
Print Assumptions C53_reverse_depths.

(* The fanout sets hold exactly the gates that have the node as a fanin. *)
Theorem C53_fanouts s : network s -> exists m, compute_fanouts_info s = Some m /\ (forall c l, m c = Some l -> NoDup l) /\
  forall c n, (exists l, m c = Some l /\ n ∈ l) <-> fanin s n c /\ is_dead s n = Some false.
Proof. apply fanouts_ok. Qed.
Print Assumptions C53_fanouts.

(* The loop over the gates: every valuation of the network extends to one of the
   edited network, with the same values at the outputs. *)
Theorem C53_loop order p fuel s x : network s -> is_combinational s = true -> refactor_loop order p fuel s = Some x ->
  ins (rnet x) = ins s /\ npi (rnet x) = npi s /\ npo (rnet x) = npo s /\ length (outs (rnet x)) = length (outs s) /\ size s <= size (rnet x) /\
  forall env v, valuation s env v -> exists v', valuation (rnet x) env v' /\ (forall n, n < size s -> v' n = v n) /\
    map (sval v') (outs (rnet x)) = map (sval v) (outs s).
Proof.
  intros W C%bool_decide_eq_true H. destruct (refactor_loop_keeps order p fuel s x (network_shape s W) C H) as [_ []]. done.
Qed.
Print Assumptions C53_loop.

(* Whenever the pass returns a network, with whatever parameters and however the
   sets are ordered, that network computes the same functions. *)
Theorem C53_refactor order p fuel nb s d : 0 < nb -> network s -> is_combinational s = true -> refactor order p fuel nb s = Some d ->
  reachable d /\ npi d = npi s /\ npo d = npo s /\ is_combinational d = true /\ forall env l, computes s env l <-> computes d env l.
Proof.
  intros Hnb W C H. unfold refactor in H. apply bind_Some in H as (x & H & Hd).
  pose proof C as C'. apply bool_decide_eq_true in C'.
  destruct (refactor_loop_keeps order p fuel s x (network_shape s W) C' H) as [S K].
  assert (Cx : is_combinational (rnet x) = true) by (apply bool_decide_eq_true_2; exact (keeps_comb _ _ K C')).
  destruct (cleanup_some nb (rnet x) d Hnb S Cx Hd) as (Hr & Hi & Ho & Hc & Hcomp).
  split; [done|]. split; [rewrite Hi; apply K|]. split; [rewrite Ho; apply K|]. split; [done|].
  assert (Hdir : forall env l, computes s env l -> computes d env l).
  { intros env l (v & V & ->). apply Hcomp. destruct (kp_val _ _ K env v V) as (v' & V' & _ & E).
    exists v'. split; [done|]. unfold pos. rewrite (kp_npo _ _ K), <- !firstn_map, E. done. }
  intros env l. split; [apply Hdir|]. intros Hl.
  destruct (net_valuation s env W) as [v V].
  assert (Hs : computes s env (map (sval v) (pos s))) by (by exists v).
  by rewrite (computes_unique d env l _ (wf_network d (reachable_wf d Hr)) Hl (Hdir _ _ Hs)).
Qed.
Print Assumptions C53_refactor.

(* A gate outside the cones of the outputs has no depth: the pass reads through
   the end of a map. *)
Definition rp_dangling : aig :=
  build [OpPi; OpPi; OpPi; OpAnd (a_ 1) (a_ 2); OpAnd (a_ 3) (a_ 4); OpAnd (a_ 5) (n_ 1); OpPo (a_ 4)].
Theorem C53_dangling_refuted : exists s, reachable s /\ is_combinational s = true /\
  forall order fuel nb, refactor order default_params fuel nb s = None.
Proof.
  exists rp_dangling. split; [apply build_reachable; vm_compute; reflexivity|]. split; [vm_compute; reflexivity|].
  intros order fuel nb. vm_compute. reflexivity.
Qed.
Print Assumptions C53_dangling_refuted.

(* (x & y) & (x & z), shared nowhere: three gates become two *)
Definition rp_ex : aig := build [OpPi; OpPi; OpPi; OpAnd (a_ 1) (a_ 2); OpAnd (a_ 1) (a_ 3); OpAnd (a_ 4) (a_ 5); OpPo (a_ 6)].
Example C53_nonvacuous : reachable rp_ex /\ is_combinational rp_ex = true /\
  option_map size (refactor (fun l => l) default_params 10 1 rp_ex) = Some (size rp_ex - 1).
Proof. split; [apply build_reachable; vm_compute; reflexivity|]. split; vm_compute; reflexivity. Qed.
