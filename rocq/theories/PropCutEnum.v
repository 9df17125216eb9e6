(* Property C16: cut enumeration (cut_enumeration.hpp). *)
From Verif Require Import Base Aig AigSem AigProofs AigApi Demo Tt TtCache Cut CutEnum CutEnumProofs.

(* Networks within the ranges of the 31-bit counters of the code. *)
Definition small (max : nat) (s : aig) : Prop :=
  (N.of_nat (2 + max * max * size s) <= 2 ^ 31)%N /\ (N.of_nat (2 * size s + length (outs s)) < 2 ^ 31)%N.

(* [max] and [cap] are max_cut_num = 12 and the capacity of a cut (see C47). *)
Theorem C16_cuts_sound {D} truth lt upd (d0 : D) cap max s ps x n cs c :
  reachable s -> length (ins s) = npi s -> 0 < max -> small max s ->
  cut_enumeration truth lt upd d0 cap max s ps = Some x ->
  x.1 !! n = Some cs -> c ∈ vis cs ->
  sorted (lvs c) /\ length (lvs c) <= Nat.max 1 (cut_size ps) /\
  (truth = false \/ minimize ps = false -> is_cut s n (lvs c)) /\
  (truth = true -> exists t, cache_get (fid c) x.2 = Some t /\ cut_function s n (lvs c) t).
Proof.
  intros Hr Hc Hm [Hs1 Hs2] E Hx Hin. pose proof (reachable_wf s Hr) as Hw.
  pose proof (cut_enumeration_spec truth lt upd d0 cap max s ps Hw Hm Hc Hs1 (no_dead s Hw Hs2)) as H.
  rewrite E in H. assert (Hn : n < size s) by (rewrite <- (i_len _ _ _ _ _ _ _ _ H); by eapply lookup_lt_Some).
  destruct (i_done _ _ _ _ _ _ _ _ H n cs Hn Hx) as [[_ Hg] _]. destruct (Hg c Hin) as [[G1 G2 G3 G4] _].
  split; [apply G1|]. split; [done|]. split.
  - intros Hor. apply G3. intros ->. by destruct Hor.
  - intros Ht. destruct (G4 Ht) as (t & ? & ? & ?). eauto.
Qed.
Print Assumptions C16_cuts_sound.

(* No leaf comes after the node, the node is a leaf of its trivial cut only, and the
   leaves are in the cone of the node. *)
Theorem C16_leaves {D} truth lt upd (d0 : D) cap max s ps x n cs c l :
  reachable s -> length (ins s) = npi s -> 0 < max -> small max s ->
  cut_enumeration truth lt upd d0 cap max s ps = Some x ->
  x.1 !! n = Some cs -> c ∈ vis cs -> l ∈ lvs c -> (l < n \/ lvs c = [n]) /\ rtc (fanin s) n l.
Proof.
  intros Hr Hc Hm [Hs1 Hs2] E Hx Hin Hl. pose proof (reachable_wf s Hr) as Hw.
  pose proof (cut_enumeration_spec truth lt upd d0 cap max s ps Hw Hm Hc Hs1 (no_dead s Hw Hs2)) as H.
  rewrite E in H. assert (Hn : n < size s) by (rewrite <- (i_len _ _ _ _ _ _ _ _ H); by eapply lookup_lt_Some).
  destruct (i_done _ _ _ _ _ _ _ _ H n cs Hn Hx) as [[_ Hg] _]. destruct (Hg c Hin) as [G _].
  destruct (g_le _ _ _ _ _ _ G l Hl) as (Hle & He & Hp). split; [|done]. destruct (decide (l = n)) as [->|]; [right; by apply He|left; lia].
Qed.
Print Assumptions C16_leaves.

Theorem C16_cut_count {D} truth lt upd (d0 : D) cap max s ps x n cs :
  reachable s -> length (ins s) = npi s -> 0 < max -> small max s ->
  cut_enumeration truth lt upd d0 cap max s ps = Some x -> x.1 !! n = Some cs ->
  (1 <= cut_limit ps < 2 ^ 32)%N -> (N.of_nat (length (vis cs)) <= cut_limit ps)%N.
Proof.
  intros Hr Hc Hm [Hs1 Hs2] E Hx Hl. pose proof (reachable_wf s Hr) as Hw.
  pose proof (cut_enumeration_spec truth lt upd d0 cap max s ps Hw Hm Hc Hs1 (no_dead s Hw Hs2)) as H.
  rewrite E in H. assert (Hn : n < size s) by (rewrite <- (i_len _ _ _ _ _ _ _ _ H); by eapply lookup_lt_Some).
  destruct (i_done _ _ _ _ _ _ _ _ H n cs Hn Hx) as (_ & Hd & _). apply Hd; lia.
Qed.
Print Assumptions C16_cut_count.

(* The enumeration fails no assertion and stays in bounds when two cuts fit
   into one, at least two cuts are allowed per node and tables are not
   minimised. *)
Theorem C16_defined {D} truth lt upd (d0 : D) cap max s ps :
  reachable s -> length (ins s) = npi s -> 0 < max -> small max s ->
  2 <= cap -> 2 * cut_size ps <= cap -> minimize ps = false ->
  (2 <= cut_limit ps < 2 ^ 32)%N -> (cut_limit ps < N.of_nat max)%N ->
  exists x, cut_enumeration truth lt upd d0 cap max s ps = Some x /\ length x.1 = size s.
Proof.
  intros Hr Hc Hm [Hs1 Hs2] H1 H2 H3 H4 H5. pose proof (reachable_wf s Hr) as Hw.
  pose proof (cut_enumeration_spec truth lt upd d0 cap max s ps Hw Hm Hc Hs1 (no_dead s Hw Hs2)) as H.
  destruct (cut_enumeration truth lt upd d0 cap max s ps) as [x|].
  - exists x. split; [done|]. apply H.
  - exfalso. apply H. split; [|done]. unfold Safe. auto.
Qed.
Print Assumptions C16_defined.

(* With cuts of at least two leaves, at least three of them per node and tables that
   are not minimised, every input and gate keeps its trivial cut, and every gate keeps a
   cut with two or more leaves. *)
Theorem C16_gates_have_cuts {D} truth lt upd (d0 : D) cap max s ps x n cs :
  reachable s -> length (ins s) = npi s -> 0 < max -> small max s ->
  2 <= cut_size ps -> 2 * cut_size ps <= cap -> minimize ps = false -> (3 <= cut_limit ps < 2 ^ 32)%N ->
  cut_enumeration truth lt upd d0 cap max s ps = Some x -> x.1 !! n = Some cs -> n <> 0 ->
  (exists c, c ∈ vis cs /\ lvs c = [n]) /\
  (is_gate s n -> exists c, c ∈ vis cs /\ 2 <= length (lvs c)) /\
  (forall c, c ∈ vis cs -> lvs c = [n] \/ 2 <= length (lvs c)).
Proof.
  intros Hr Hc Hm [Hs1 Hs2] H2 Hcap Hmin Hlim E Hx Hn0. pose proof (reachable_wf s Hr) as Hw.
  pose proof (cut_enumeration_spec truth lt upd d0 cap max s ps Hw Hm Hc Hs1 (no_dead s Hw Hs2)) as H.
  rewrite E in H. assert (Hn : n < size s) by (rewrite <- (i_len _ _ _ _ _ _ _ _ H); by eapply lookup_lt_Some).
  destruct (i_done _ _ _ _ _ _ _ _ H n cs Hn Hx) as (_ & _ & H3 & H4).
  assert (Hno : nomin truth ps) by by intros ?. destruct (H4 Hn0 (conj H2 (conj Hno Hlim)) Hcap) as [? ?]. auto.
Qed.
Print Assumptions C16_gates_have_cuts.

Definition pn (n : nat) : signal := Sig n false.
Definition keep_data : list (cutset unit) -> nat -> cut unit -> unit := fun _ _ c => dat c.
Definition enum (truth : bool) (cap : nat) (s : aig) (ps : cut_ps) :=
  cut_enumeration truth size_lt keep_data Datatypes.tt cap 12 s ps.
Definition leaves_of (x : option (list (cutset unit) * cache)) (n : nat) : option (list (list nat)) :=
  x ← x; cs ← x.1 !! n; Some (map lvs (vis cs)).

(* a multiplexer: 4 = !x1 & x2, 5 = x1 & x3, 6 = !4 & !5 *)
Definition mux : aig := build [OpPi; OpPi; OpPi; OpIte (pn 1) (pn 3) (pn 2); OpPo (pn 6)].
Example C16_nonvacuous :
  reachable mux /\ length (ins mux) = npi mux /\ small 12 mux /\ length (ins mux) = 3 /\
  leaves_of (enum true 7 mux (CutPs 3 8 false)) 6 = Some [[4; 5]; [1; 3; 4]; [1; 2; 5]; [1; 2; 3]; [6]] /\
  (x ← enum true 7 mux (CutPs 3 8 false); cs ← x.1 !! 6; c ← vis cs !! 3; t ← cache_get (fid c) x.2; Some (tb t))
    = Some [true; true; false; true; true; false; false; false].
Proof.
  split; [apply build_reachable; vm_compute; reflexivity|].
  split; [vm_compute; reflexivity|]. split; [split; vm_compute; congruence|].
  split_and!; vm_compute; reflexivity.
Qed.

(* With minimize_truth_table the leaves need not cut all paths: 3 = x1 & x2,
   4 = x1 & !x2, 5 = !3 & !4 is !x1, and {1} is reported as a cut of 5 although
   the path 5, 3, 2 avoids it. *)
Definition redundant : aig :=
  build [OpPi; OpPi; OpAnd (pn 1) (pn 2); OpAnd (pn 1) (snot (pn 2)); OpAnd (snot (pn 3)) (snot (pn 4)); OpPo (pn 5)].
Theorem C16_minimized_paths_refuted : exists s x n cs c,
  reachable s /\ length (ins s) = npi s /\ small 12 s /\
  enum true 7 s (CutPs 3 8 true) = Some x /\ x.1 !! n = Some cs /\ c ∈ vis cs /\ ~ is_cut s n (lvs c).
Proof.
  exists redundant. destruct (enum true 7 redundant (CutPs 3 8 true)) as [x|] eqn:E; [|vm_compute in E; congruence].
  assert (Hl : leaves_of (Some x) 5 = Some [[1]; [3; 4]; [5]]) by (rewrite <- E; vm_compute; reflexivity).
  cbn in Hl. destruct (x.1 !! 5) as [cs|] eqn:Ex; [|done]. cbn in Hl. injection Hl as Hl.
  destruct (vis cs) as [|c l] eqn:Ev; [done|]. exists x, 5, cs, c.
  split; [apply build_reachable; vm_compute; reflexivity|].
  split; [vm_compute; reflexivity|]. split; [split; vm_compute; congruence|].
  split; [done|]. split; [done|]. split; [rewrite Ev; constructor|].
  injection Hl as Hc _. rewrite Hc. intros H.
  destruct (H [5; 3; 2] 2) as (l' & Hl1 & Hl2).
  - apply path_cons with 3; [|apply path_cons with 2; [|constructor]].
    + exists (Sig 3 true), (Sig 4 true). split; [vm_compute; reflexivity|]. split_and!; [done|done|by left].
    + exists (Sig 1 false), (Sig 2 false). split; [vm_compute; reflexivity|]. split_and!; [done|done|by right].
  - vm_compute. by right; left.
  - apply elem_of_list_singleton in Hl2 as ->.
    rewrite !elem_of_cons, elem_of_nil in Hl1. destruct Hl1 as [?|[?|[?|?]]]; done.
Qed.
Print Assumptions C16_minimized_paths_refuted.

(* A node with a constant function makes the minimising enumeration fail its
   assertion (the minimised cut has no leaf): 6 = (x1 & x2) & (!x1 & x3). *)
Definition const0_net : aig :=
  build [OpPi; OpPi; OpPi; OpAnd (pn 1) (pn 2); OpAnd (snot (pn 1)) (pn 3); OpAnd (pn 4) (pn 5); OpPo (pn 6)].
Theorem C16_minimized_defined_refuted : exists s, reachable s /\ length (ins s) = npi s /\ small 12 s /\
  enum true 7 s (CutPs 3 8 true) = None /\ enum true 7 s (CutPs 3 8 false) <> None.
Proof.
  exists const0_net. split; [apply build_reachable; vm_compute; reflexivity|].
  split; [vm_compute; reflexivity|]. split; [split; vm_compute; congruence|].
  split; vm_compute; congruence.
Qed.
Print Assumptions C16_minimized_defined_refuted.

(* With cuts of up to six leaves the seven-element leaf array overflows (C47)
   during enumeration of a 19-node network. *)
Definition wide : aig := build (replicate 8 OpPi ++
  [OpAnd (pn 1) (pn 2); OpAnd (pn 3) (pn 9); OpAnd (pn 4) (pn 10); OpAnd (pn 5) (pn 11); OpAnd (pn 6) (pn 12);
   OpAnd (pn 3) (pn 4); OpAnd (pn 5) (pn 14); OpAnd (pn 6) (pn 15); OpAnd (pn 7) (pn 16); OpAnd (pn 8) (pn 17);
   OpAnd (pn 13) (pn 18); OpPo (pn 19)]).
Theorem C47_enumeration_refuted : exists s, reachable s /\ length (ins s) = npi s /\ small 12 s /\
  enum false 7 s (CutPs 6 8 false) = None.
Proof.
  exists wide. split; [apply build_reachable; vm_compute; reflexivity|].
  split; [vm_compute; reflexivity|]. split; [split; vm_compute; congruence|vm_compute; reflexivity].
Qed.
Print Assumptions C47_enumeration_refuted.
