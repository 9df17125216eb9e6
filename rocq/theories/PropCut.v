(* Properties C14, C15, C17 and C47 (cut.hpp, cut_set.hpp). *)
From Verif Require Import Base Cut CutProofs.

(* ---- C14 ---- *)
Theorem C14_dominates {D} (a b : cut D) : cut_wf a -> cut_wf b ->
  dominates a b = true <-> forall x, x ∈ lvs a -> x ∈ lvs b.
Proof. exact (dominates_spec a b). Qed.
Print Assumptions C14_dominates.

(* u is the sorted union of the leaves *)
Theorem C14_merge {D} cap (a b res : cut D) k u : cut_wf a -> cut_wf b ->
  sorted u -> (forall x, x ∈ u <-> x ∈ lvs a \/ x ∈ lvs b) -> length u <= cap ->
  merge cap a b res k =
    Some (if length u <=? k then Some (Cut u (sign_of u) (fid res) (dat res)) else None).
Proof.
  intros Ha Hb Su Hu Hc. assert (u = set_union (lvs a) (lvs b)) as ->.
  { apply sorted_eq; [done| |]. destruct Ha, Hb. by apply set_union_sorted.
    intros x. by rewrite Hu, set_union_elem. }
  by apply merge_spec.
Qed.
Print Assumptions C14_merge.

(* leaves 1 and 65 share a signature bit *)
Definition mk_cut (l : list nat) : cut unit := Cut l (sign_of l) 0 tt.
Lemma mk_cut_wf l : sorted l -> cut_wf (mk_cut l).
Proof. by split. Qed.
Fixpoint sorted_b (l : list nat) : bool :=
  match l with x :: (y :: _) as r => (x <? y) && sorted_b r | _ => true end.
Lemma sorted_check l : sorted_b l = true -> sorted l.
Proof.
  induction l as [|x l IH]; [intros _; apply sorted_nil|]. destruct l as [|y l].
  { intros _. apply sorted_cons. split; [intros z ?%not_elem_of_nil; done|apply sorted_nil]. }
  change (sorted_b (x :: y :: l)) with ((x <? y) && sorted_b (y :: l)). rewrite andb_true_iff, Nat.ltb_lt.
  intros [Hxy Hs]. specialize (IH Hs). apply sorted_cons. split; [|done].
  intros z [->|Hz]%elem_of_cons; [done|]. apply sorted_cons in IH as [H _]. specialize (H _ Hz). lia.
Qed.
Example C14_nonvacuous :
  cut_wf (mk_cut [1; 5]) /\ cut_wf (mk_cut [3; 65]) /\ cut_wf (mk_cut [1; 3; 5; 65]) /\
  dominates (mk_cut [1; 5]) (mk_cut [1; 3; 5; 65]) = true /\
  dominates (mk_cut [65]) (mk_cut [1; 5]) = false /\ sg (mk_cut [65]) = sg (mk_cut [1]) /\
  merge 7 (mk_cut [1; 5]) (mk_cut [3; 65]) (mk_cut []) 4 = Some (Some (mk_cut [1; 3; 5; 65])) /\
  merge 7 (mk_cut [1; 5]) (mk_cut [3; 65]) (mk_cut []) 3 = Some None.
Proof.
  split_and!; try (apply mk_cut_wf, sorted_check; reflexivity); vm_compute; reflexivity.
Qed.

(* ---- C47 ---- *)
(* The leaf array of a cut has seven elements (max_cut_size,
   cut_enumeration.hpp:82); two six-leaf cuts over nodes 1..8 overflow it. *)
Theorem C47_in_bounds_refuted : exists a b res : cut unit,
  cut_wf a /\ cut_wf b /\ length (lvs a) = 6 /\ length (lvs b) = 6 /\
  (forall x, x ∈ lvs a \/ x ∈ lvs b -> x <= 8) /\
  merge 7 a b res 6 = None.
Proof.
  exists (mk_cut [1; 2; 3; 4; 5; 6]), (mk_cut [3; 4; 5; 6; 7; 8]), (mk_cut []).
  split_and!; try (apply mk_cut_wf, sorted_check; reflexivity); try (vm_compute; reflexivity).
  cbn. intros x. rewrite !elem_of_cons, elem_of_nil. lia.
Qed.
Print Assumptions C47_in_bounds_refuted.

(* the writes are in bounds whenever the two cuts together fit *)
Theorem C47_in_bounds {D} cap (a b res : cut D) k : cut_wf a -> cut_wf b ->
  length (lvs a) + length (lvs b) <= cap -> exists r, merge cap a b res k = Some r.
Proof.
  intros Ha Hb H. eexists. apply merge_spec; [done..|].
  pose proof (set_union_length (lvs a) (lvs b)). lia.
Qed.
Print Assumptions C47_in_bounds.

Example C47_nonvacuous : length (lvs (mk_cut [1; 5])) + length (lvs (mk_cut [3; 65])) <= 7.
Proof. cbn. lia. Qed.

(* ---- C15 ---- *)
(* [cs_hist lt max cap h s]: s results from offering the cuts h (each inserted
   unless is_dominated) and from limit calls, in any order *)
Theorem C15_irredundant {D} lt max cap h (s : cutset D) i j a b : 0 < max -> cs_hist lt max cap h s ->
  vis s !! i = Some a -> vis s !! j = Some b -> i <> j -> dominates a b = false.
Proof.
  intros Hm Hh Ha Hb Hij. pose proof (cs_hist_inv lt max cap h s Hm Hh) as [_ Hw Hirr _].
  destruct (dominates a b) eqn:E; [|done]. exfalso. apply (Hirr i j a b Ha Hb Hij).
  apply dominates_spec; [by apply Hw; eapply elem_of_list_lookup_2..|done].
Qed.
Print Assumptions C15_irredundant.

Theorem C15_ordered {D} lt max cap h (s : cutset D) i j a b : 0 < max -> cs_hist lt max cap h s -> swo lt ->
  vis s !! i = Some a -> vis s !! j = Some b -> i < j -> lt b a = false.
Proof.
  intros Hm Hh W Ha Hb Hij. pose proof (cs_hist_inv lt max cap h s Hm Hh) as [_ _ _ Hs]. by eapply (Hs W i j).
Qed.
Print Assumptions C15_ordered.

Theorem C15_only_offered {D} lt max cap h (s : cutset D) c : 0 < max -> cs_hist lt max cap h s ->
  c ∈ vis s -> c ∈ h.
Proof. intros Hm Hh Hc. by apply (cs_hist_inv lt max cap h s Hm Hh). Qed.
Print Assumptions C15_only_offered.

Theorem C15_dominated_not_added {D} lt max cap h (s : cutset D) c o : 0 < max -> cs_hist lt max cap h s ->
  cut_wf c -> o ∈ vis s -> (forall x, x ∈ lvs o -> x ∈ lvs c) -> cs_add lt cap c s = Some s.
Proof.
  intros Hm Hh Hc Ho Hs. unfold cs_add. assert (is_dominated s c = true) as ->; [|done].
  apply is_dominated_spec; [done| |eauto]. intros o' Ho'. by apply (cs_hist_inv lt max cap h s Hm Hh).
Qed.
Print Assumptions C15_dominated_not_added.

(* nothing is lost while everything fits, and the calls do not fail *)
Theorem C15_complete {D} lt max cap (d : D) h : 0 < max -> length h <= max ->
  Forall (fun c => cut_wf c /\ lvs c <> [] /\ length (lvs c) <= cap) h ->
  exists s, cs_add_all lt cap h (cs_new max d) = Some s /\ cs_hist lt max cap h s /\
    forall c, c ∈ h -> exists o, o ∈ vis s /\ forall x, x ∈ lvs o -> x ∈ lvs c.
Proof.
  intros Hm Hl Hh. destruct (cs_run_complete lt max cap d h Hh Hl Hm) as (s & E & Hs & _ & Hr). by exists s.
Qed.
Print Assumptions C15_complete.

Theorem C15_calls_defined {D} lt max cap h (s : cutset D) c : 0 < max -> cs_hist lt max cap h s ->
  cut_wf c -> lvs c <> [] -> length (lvs c) <= cap -> exists s', cs_add lt cap c s = Some s'.
Proof. exact (cs_add_total lt max cap s c h). Qed.
Print Assumptions C15_calls_defined.

(* insert alone does not check for dominating cuts: after inserting {1} and
   then {1,2} both are present *)
Theorem C15_raw_insert_refuted : exists s : cutset unit,
  (s1 ← cs_insert size_lt 7 (mk_cut [1]) (cs_new 12 tt); cs_insert size_lt 7 (mk_cut [1; 2]) s1) = Some s /\
  map lvs (vis s) = [[1]; [1; 2]] /\
  exists a b, vis s !! 0 = Some a /\ vis s !! 1 = Some b /\ dominates a b = true.
Proof.
  eexists. split; [vm_compute; reflexivity|]. split; [vm_compute; reflexivity|].
  do 2 eexists. split_and!; vm_compute; reflexivity.
Qed.
Print Assumptions C15_raw_insert_refuted.

Example C15_nonvacuous :
  swo (@size_lt unit) /\
  exists s, cs_hist size_lt 3 7 (map mk_cut [[1; 2; 3]; [4; 5]; [1; 2]; [1; 2; 9]; [6; 7; 8]; [4; 5]; [6]]) s /\
    map lvs (vis s) = [[6]; [1; 2]; [4; 5]].
Proof.
  split; [apply size_lt_swo|].
  set (h := map mk_cut [[1; 2; 3]; [4; 5]; [1; 2]; [1; 2; 9]; [6; 7; 8]; [4; 5]; [6]]).
  assert (G : forall h s, cs_add_all size_lt 7 h (cs_new 3 tt) = Some s ->
    Forall (fun c => cut_wf c /\ lvs c <> [] /\ length (lvs c) <= 7) h -> cs_hist size_lt 3 7 h s).
  { clear h. induction h as [|c h IH] using rev_ind; intros s E Hh.
    { injection E as <-. constructor. }
    apply Forall_app in Hh as [Hh Hc]. apply Forall_cons_1 in Hc as [(? & ? & ?) _].
    rewrite cs_add_all_app in E. destruct (cs_add_all size_lt 7 h (cs_new 3 tt)) as [s0|] eqn:E0; [|done].
    cbn in E. destruct (cs_add size_lt 7 c s0) eqn:E1; [|done]. injection E as <-. econstructor; eauto. }
  eexists. split; [apply G; [vm_compute; reflexivity|]|vm_compute; reflexivity].
  repeat (constructor; [split_and!; [apply mk_cut_wf, sorted_check; reflexivity|done|cbn; lia]|]). constructor.
Qed.

(* ---- C17 ---- *)
Theorem C17_limit_refuted : exists (s s' : cutset unit),
  cs_hist size_lt 12 7 (map mk_cut [[1]; [2]; [3]]) s /\ limit 2 s = Some s' /\
  length (vis s) = 3 /\ vis s' <> take 2 (vis s).
Proof.
  destruct (C15_complete (D := unit) size_lt 12 7 tt (map mk_cut [[1]; [2]; [3]])) as (s & E & Hs & _);
    [lia|cbn; lia| |].
  { repeat (constructor; [split_and!; [apply mk_cut_wf, sorted_check; reflexivity|done|cbn; lia]|]). constructor. }
  vm_compute in E. injection E as <-. do 2 eexists. split; [exact Hs|].
  split_and!; [vm_compute; reflexivity..|vm_compute; congruence].
Qed.
Print Assumptions C17_limit_refuted.

(* what limit does: one cut too few is kept when it cuts anything off, and
   limit 0 of a non-empty set moves the end before the beginning *)
Theorem C17_limit {D} lt max cap h (s : cutset D) k : 0 < max -> cs_hist lt max cap h s ->
  ((N.of_nat (length (vis s)) <= k)%N -> limit k s = Some s) /\
  ((0 < k < N.of_nat (length (vis s)))%N ->
     exists s', limit k s = Some s' /\ vis s' = take (N.to_nat k - 1) (vis s)) /\
  ((k = 0 /\ 0 < N.of_nat (length (vis s)))%N -> limit k s = None).
Proof.
  intros Hm Hh. destruct (cs_hist_inv lt max cap h s Hm Hh) as [[Hl Hn] _ _ _].
  assert (Hv : length (vis s) = cn s) by (unfold vis; rewrite take_length; lia). rewrite Hv.
  split_and!.
  - intros Hk. unfold limit. by rewrite decide_False by lia.
  - intros Hk. destruct (limit_spec max k s) as (s' & E & _ & V); [done..|]. eauto.
  - intros [-> Hk]. unfold limit. by rewrite decide_True, decide_True by lia.
Qed.
Print Assumptions C17_limit.
