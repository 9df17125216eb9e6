(* C52: the selection phase of rewriting and the whole pass. *)
From Coq Require Import Sorted.
From Verif Require Import Base Aig AigSem AigProofs AigApi AigReach Topo Depth Clean CleanProofs NetProofs Tt TtCache Cut CutEnum CutEnumProofs Cnf Sim Demo NetDemo PropNet
  Subst SubstProofs PropSubst RefDeref RefDerefProofs PropRefDeref Rewrite RewriteProofs PropRewrite NodeRewriting NodeRewritingProofs
  PropCutEnum PropNodeRewriting RewriteSelect RewriteSelectProofs.
Local Open Scope nat_scope.

(* [d] is any decoded database of valid structures (C36_database: the shipped one
   is), [cps] any cut parameters for which the enumeration of cuts succeeds. *)

(* The selection never fails.  It only adds gates to the network; every chosen
   node is a gate of the given network, chosen once, in the order of the nodes,
   and has the function of the signal chosen for it. *)
Theorem C52_selection {D} lt upd (d0 : D) cap max cps b vs d ps s x :
  reachable s -> length (ins s) = npi s -> 0 < max -> small max s ->
  cut_enumeration true lt upd d0 cap max s cps = Some x ->
  0 < b -> (N.of_nat (length vs) < 2 ^ 26)%N -> db_valid vs -> generate_db b vs = Some d ->
  exists s' v a l, select_all lt upd d0 cap max cps d ps s = Some (s', v, a, l) /\ reachable s' /\
    (exists t, ks s' = ks s ++ t) /\ ins s' = ins s /\ outs s' = outs s /\
    StronglySorted (fun p q => p.1 < q.1) l /\
    (forall n f, (n, f) ∈ l -> is_gate s n /\ valid s' f /\ equivalent s' n f).
Proof.
  intros R Hc Hm Hsm Hx Hb Hl Hvs Hd.
  destruct (select_all_ok lt upd d0 cap max cps b vs d ps s x R Hc Hm Hsm Hx Hb Hl Hvs Hd) as (s' & v & a & l & E & Hi).
  exists s', v, a, l. split; [done|]. destruct Hi as [HR HX _ HP _ HS]. split; [done|]. split; [apply HX|].
  split; [apply HX|]. split; [apply HX|]. split; [done|]. intros n f Hin. rewrite Forall_forall in HP.
  destruct (HP _ Hin) as [Hg (g & Hch & _)]. split; [done|]. destruct Hch. done.
Qed.
Print Assumptions C52_selection.

(* The reference counts, which are lowered and raised for every candidate, are
   those of the given network again when the selection is done. *)
Theorem C52_counts {D} lt upd (d0 : D) cap max cps b vs d ps s x s' v a l :
  reachable s -> length (ins s) = npi s -> 0 < max -> small max s ->
  cut_enumeration true lt upd d0 cap max s cps = Some x ->
  0 < b -> (N.of_nat (length vs) < 2 ^ 26)%N -> db_valid vs -> generate_db b vs = Some d ->
  select_all lt upd d0 cap max cps d ps s = Some (s', v, a, l) -> moderate s' ->
  forall y, v y = N.of_nat (references s y).
Proof.
  intros R Hc Hm Hsm Hx Hb Hl Hvs Hd E Hmod.
  destruct (select_all_ok lt upd d0 cap max cps b vs d ps s x R Hc Hm Hsm Hx Hb Hl Hvs Hd) as (s1 & v1 & a1 & l1 & E1 & Hi).
  rewrite E1 in E. injection E as <- <- <- <-. by apply Hi.
Qed.
Print Assumptions C52_counts.

(* The gain is what it is meant to be: for every chosen pair there is a cut of four
   leaves such that the fanout-free cone E of the node above the cut is larger
   (with use_zero_gain: not smaller) than the set A of nodes that the replacement
   has to add for the signal once the cone is gone. *)
Theorem C52_gain {D} lt upd (d0 : D) cap max cps b vs d ps s x s' v a l n f :
  reachable s -> length (ins s) = npi s -> 0 < max -> small max s ->
  cut_enumeration true lt upd d0 cap max s cps = Some x ->
  0 < b -> (N.of_nat (length vs) < 2 ^ 26)%N -> db_valid vs -> generate_db b vs = Some d ->
  select_all lt upd d0 cap max cps d ps s = Some (s', v, a, l) -> moderate s' -> (n, f) ∈ l ->
  exists leaves t E A, length leaves = 4 /\ n ∉ leaves /\ cut_function s n leaves t /\
    ffc s (leaf_b leaves) n E /\ addc s' leaves (still_used s E) (sidx f) A /\
    (length A < length E \/ use_zero_gain ps = true /\ length A = length E).
Proof.
  intros R Hc Hm Hsm Hx Hb Hl Hvs Hd E Hmod Hin.
  destruct (select_all_ok lt upd d0 cap max cps b vs d ps s x R Hc Hm Hsm Hx Hb Hl Hvs Hd) as (s1 & v1 & a1 & l1 & E1 & Hi).
  rewrite E1 in E. injection E as -> -> -> ->. pose proof (r_picked _ _ _ _ _ _ Hi) as HP. rewrite Forall_forall in HP.
  destruct (HP _ Hin) as [_ (g & Hch & Hg)]. destruct (ch_gain _ _ _ _ _ Hch Hmod) as (leaves & t & E & A & H1 & H2 & H3 & H4 & H5 & ->).
  exists leaves, t, E, A. split_and!; try done. destruct Hg as [Hg|[Hz Hg]]; [left|right]; [|split; [done|]]; lia.
Qed.
Print Assumptions C52_gain.

Lemma computes_ev s env l : reachable s -> computes s env l <-> l = map (sval (ev s env)) (pos s).
Proof.
  intros R. pose proof (reachable_wf s R) as W. split.
  - intros (v & Hv & ->). apply map_ext_in. intros f Hf. unfold sval. f_equal. apply (valuation_unique s env v W Hv).
    apply (wf_out s W). apply elem_of_list_In in Hf. unfold pos in Hf. apply elem_of_list_lookup in Hf as [i Hi].
    apply lookup_take_Some in Hi as [Hi _]. by eapply elem_of_list_lookup_2.
  - intros ->. exists (ev s env). split; [by apply ev_valuation|done].
Qed.
Lemma ext_computes s s' env l : reachable s -> reachable s' -> ext s s' -> computes s env l <-> computes s' env l.
Proof.
  intros R R' X. rewrite !computes_ev by done.
  assert (Hm : map (sval (ev s' env)) (pos s') = map (sval (ev s env)) (pos s)); [|by rewrite Hm].
  replace (pos s') with (pos s) by (unfold pos; by rewrite (ext_outs _ _ X), (ext_npo _ _ X)).
  apply map_ext_in. intros f Hf. apply ext_sval; [done|]. apply (wf_out s (reachable_wf s R)). apply elem_of_list_In in Hf.
  unfold pos in Hf. apply elem_of_list_lookup in Hf as [i Hi]. apply lookup_take_Some in Hi as [Hi _]. by eapply elem_of_list_lookup_2.
Qed.

(* The whole pass returns a network with the same functions if the chosen
   replacements do not get in each other's way (C34). *)
Theorem C52_rewrite {D} nb lt upd (d0 : D) cap max cps b vs d ps s x :
  0 < nb -> reachable s -> is_combinational s = true -> 0 < max -> small max s ->
  cut_enumeration true lt upd d0 cap max s cps = Some x ->
  0 < b -> (N.of_nat (length vs) < 2 ^ 26)%N -> db_valid vs -> generate_db b vs = Some d ->
  (forall s' v a l, select_all lt upd d0 cap max cps d ps s = Some (s', v, a, l) -> moderate s' /\ harmless (recorded_fanouts s) l s') ->
  exists r, rewrite nb lt upd d0 cap max cps d ps s = Some r /\ reachable r /\ npi r = npi s /\ npo r = npo s /\
    forall env l, computes s env l <-> computes r env l.
Proof.
  intros Hnb R Hcomb Hm Hsm Hx Hb Hl Hvs Hd Hok. pose proof Hcomb as [Hc _]%bool_decide_eq_true.
  destruct (select_all_ok lt upd d0 cap max cps b vs d ps s x R Hc Hm Hsm Hx Hb Hl Hvs Hd) as (s' & v & a & l & E & Hi).
  destruct (Hok _ _ _ _ E) as [Hmod Hh]. unfold rewrite. rewrite E. cbn [mbind option_bind].
  pose proof (r_ext _ _ _ _ _ _ Hi) as X. pose proof (r_reach _ _ _ _ _ _ Hi) as R'.
  destruct (C34_phase nb (recorded_fanouts s) l s' v) as (r & Er & Rr & H1 & H2 & H3); try done.
  - by apply reach_net.
  - intros y. rewrite (r_val _ _ _ _ _ _ Hi Hmod). pose proof (references_small s (proj2 Hsm) y). lia.
  - apply bool_decide_eq_true in Hcomb as [? ?]. apply bool_decide_eq_true_2.
    rewrite (ext_ins _ _ X), (ext_npi _ _ X), (ext_outs _ _ X), (ext_npo _ _ X). done.
  - destruct (ext_ks _ _ X) as [t Ht]. apply (C34_recorded s s'); [by apply reach_net| |].
    + intros n (ka & kb & Hk & Hn & Hab). exists ka, kb. split; [|done]. rewrite Ht. by apply lookup_app_l_Some.
    + intros n (ka & kb & Hk & Hn & Hab) Hlt. exists ka, kb. split; [|done]. rewrite Ht, lookup_app_l in Hk by exact Hlt. done.
  - exists r. split; [done|]. split; [done|]. rewrite H1, H2, (ext_npi _ _ X), (ext_npo _ _ X). split; [done|]. split; [done|].
    intros env l0. rewrite <- H3. by apply ext_computes.
Qed.
Print Assumptions C52_rewrite.

(* ---- examples and counterexamples ---- *)
(* a database with one structure for the conjunction of four inputs, a chain *)
Definition and4_db : list N := [196868; 7; 9; 5; 10; 3; 12; 14]%N.
Lemma and4_valid : db_valid and4_db.
Proof. apply (check_db_ok 3 1). vm_compute. reflexivity. Qed.
Definition rw_cps : cut_ps := CutPs 4 10 false.
Definition default_select (vs : list N) (ps : rw_ps) (s : aig) : option state :=
  d ← generate_db 1 vs; select_all size_lt keep_data Datatypes.tt 7 12 rw_cps d ps s.
Definition default_rewrite (vs : list N) (ps : rw_ps) (s : aig) : option aig :=
  d ← generate_db 1 vs; rewrite 1 size_lt keep_data Datatypes.tt 7 12 rw_cps d ps s.

(* The selection of replacements may overrun the leaf array of a cut for the
   default parameters: the leaves 1 2 3 4 and 5 6 7 65 pass the signature test,
   which adds the signatures, and are merged although they are eight. *)
Definition rw_over : aig := build (replicate 65 OpPi ++ [OpAnd (a_ 1) (a_ 2); OpAnd (a_ 3) (a_ 4); OpAnd (a_ 5) (a_ 6); OpAnd (a_ 7) (a_ 65);
  OpAnd (a_ 66) (a_ 67); OpAnd (a_ 68) (a_ 69); OpAnd (a_ 70) (a_ 71); OpPo (a_ 72)]).
Theorem C52_overflow_refuted : exists s, reachable s /\ is_combinational s = true /\ small 12 s /\
  forall vs ps, default_select vs ps s = None.
Proof.
  exists rw_over. split; [apply build_reachable; vm_compute; reflexivity|]. split; [vm_compute; reflexivity|].
  split; [split; vm_compute; congruence|].
  assert (H : enum true 7 rw_over rw_cps = None) by (vm_compute; reflexivity). intros vs ps. unfold default_select, select_all.
  unfold enum in H. destruct (generate_db 1 vs); [|reflexivity]. cbn [mbind option_bind].
  destruct (initialize_depth rw_over) as [[? ?]|]; [|reflexivity]. cbn [mbind option_bind]. rewrite H. reflexivity.
Qed.
Print Assumptions C52_overflow_refuted.

(* A network that meets the hypotheses: 5 = x3 & x4, 6 = x1 & x2, 7 = x1 & 5,
   8 = 6 & 7; node 8 is replaced by the new chain x1 & (x2 & 5), with gain 1. *)
Definition rw_waste : aig := build (replicate 4 OpPi ++ [OpAnd (a_ 3) (a_ 4); OpAnd (a_ 1) (a_ 2); OpAnd (a_ 1) (a_ 5); OpAnd (a_ 6) (a_ 7); OpPo (a_ 8)]).
Lemma default_select_eq vs ps s d : generate_db 1 vs = Some d ->
  default_select vs ps s = select_all size_lt keep_data Datatypes.tt 7 12 rw_cps d ps s.
Proof. intros E. unfold default_select. by rewrite E. Qed.
Lemma waste_enum : exists x, cut_enumeration true size_lt keep_data Datatypes.tt 7 12 rw_waste rw_cps = Some x.
Proof.
  assert (H : match cut_enumeration true size_lt keep_data Datatypes.tt 7 12 rw_waste rw_cps with Some _ => true | None => false end = true)
    by (vm_compute; reflexivity).
  revert H. generalize (cut_enumeration true size_lt keep_data Datatypes.tt 7 12 rw_waste rw_cps). intros [x|] H; [by exists x|discriminate H].
Qed.
Definition waste_check (o : option state) : bool := match o with
    | Some (s', _, _, l) => bool_decide (l = [(8, a_ 13)]) && bool_decide (size s' = 14) && closed s' [13; 1; 12; 2; 5; 3; 4] &&
        forallb (fun k : key => negb (bool_decide (sidx k.1 = 8) && bool_decide (k.2 = sxor (a_ 13) (scompl k.1))) &&
          negb (bool_decide (sidx k.2 = 8) && bool_decide (k.1 = sxor (a_ 13) (scompl k.2)))) (ks s')
    | None => false end.
Lemma waste_run : waste_check (default_select and4_db (RwPs true true) rw_waste) = true.
Proof. vm_compute. reflexivity. Qed.
Example C52_nonvacuous : exists b d x, 0 < b /\ generate_db b and4_db = Some d /\ db_valid and4_db /\ reachable rw_waste /\ is_combinational rw_waste = true /\ small 12 rw_waste /\
  cut_enumeration true size_lt keep_data Datatypes.tt 7 12 rw_waste rw_cps = Some x /\
  (forall s' v a l, select_all size_lt keep_data Datatypes.tt 7 12 rw_cps d (RwPs true true) rw_waste = Some (s', v, a, l) ->
     l = [(8, a_ 13)] /\ moderate s' /\ harmless (recorded_fanouts rw_waste) l s').
Proof.
  assert (R : reachable rw_waste) by (apply build_reachable; vm_compute; reflexivity).
  assert (S : small 12 rw_waste) by (split; vm_compute; congruence).
  assert (C : is_combinational rw_waste = true) by (vm_compute; reflexivity).
  destruct (C36_decodes 1 and4_db ltac:(lia) ltac:(reflexivity) and4_valid) as [d Ed]. destruct waste_enum as [x Ex].
  exists 1, d, x. split; [lia|]. split; [exact Ed|]. split; [exact and4_valid|]. split; [exact R|]. split; [exact C|]. split; [exact S|]. split; [exact Ex|].
  pose proof (eq_trans (f_equal waste_check (eq_sym (default_select_eq and4_db (RwPs true true) rw_waste d Ed))) waste_run) as Hc. revert R S C Ex Hc. generalize rw_waste as s. intros s R S C Ex Hc.
  destruct (C52_selection size_lt keep_data Datatypes.tt 7 12 rw_cps 1 and4_db d (RwPs true true) s x R
    (proj1 (proj1 (bool_decide_eq_true _) C)) ltac:(lia) S Ex ltac:(lia) ltac:(reflexivity) and4_valid Ed) as (s1 & v1 & a1 & l1 & E1 & _ & [t Ht] & _ & _ & _ & H).
  rewrite E1 in *. cbn [waste_check] in Hc. rewrite !andb_true_iff, !bool_decide_eq_true in Hc. destruct Hc as [[[-> Hsz] Hcl] Hnc].
  clear -Hsz Hcl Hnc H Ht. intros s' v a l E. injection E as <- <- <- <-. split; [done|]. split; [unfold moderate; rewrite Hsz; vm_compute; reflexivity|].
  destruct (H 8 (a_ 13) ltac:(left)) as (Hg & Hv & He). apply harmless_step; [|intros; apply harmless_nil].
  split_and!; [|exact Hv|exact He|by apply no_collision_check|].
  - destruct Hg as (ka & kb & Hk & Hn & Hab). exists ka, kb. split; [|exact (conj Hn Hab)]. rewrite Ht. exact (lookup_app_l_Some _ _ _ _ Hk).
  - intros Hr. apply (closed_rtc s1 _ _ _ Hcl) in Hr; [|left]. rewrite !elem_of_cons, elem_of_nil in Hr. cbn in Hr. lia.
Qed.

(* The whole pass can change a function, with the default parameters: 7 is the
   conjunction of the inputs as a chain, 9 as a tree, 10 = 7 & 9 drives both
   outputs.  9 is replaced by 7, and 10 for the first output only: the second
   output keeps the gate 7 & 7, which the code takes for an input. *)
Definition rw_twice : aig := build (replicate 4 OpPi ++ [OpAnd (a_ 3) (a_ 4); OpAnd (a_ 2) (a_ 5); OpAnd (a_ 1) (a_ 6);
  OpAnd (a_ 1) (a_ 2); OpAnd (a_ 5) (a_ 8); OpAnd (a_ 7) (a_ 9); OpPo (a_ 10); OpPo (a_ 10)]).
Theorem C52_function_refuted : exists s vs r env, reachable s /\ is_combinational s = true /\ small 12 s /\ db_valid vs /\
  default_rewrite vs (RwPs true true) s = Some r /\
  computes s env [true; true] /\ computes r env [true; false].
Proof.
  assert (H : match default_rewrite and4_db (RwPs true true) rw_twice with
      | Some d => bool_decide (pos d = [Sig 7 false; Sig 0 false]) && bool_decide (ins d = [1; 2; 3; 4]) &&
          bool_decide (ks d = ks (build (replicate 4 OpPi ++ [OpAnd (a_ 3) (a_ 4); OpAnd (a_ 2) (a_ 5); OpAnd (a_ 1) (a_ 6)])))
      | None => false end = true) by (vm_compute; reflexivity).
  revert H. destruct (default_rewrite and4_db (RwPs true true) rw_twice) as [r|] eqn:E; [|intros H; discriminate H]. intros H.
  rewrite !andb_true_iff, !bool_decide_eq_true in H. destruct H as [[Hpo Hin] Hks].
  exists rw_twice, and4_db, r, (fun _ => true).
  assert (Hr : reachable rw_twice) by (apply build_reachable; vm_compute; reflexivity).
  split; [exact Hr|]. split; [vm_compute; reflexivity|]. split; [split; vm_compute; congruence|]. split; [exact and4_valid|].
  split; [exact E|]. split.
  - apply computes_ev; [exact Hr|]. vm_compute. reflexivity.
  - exists (fun n => bool_decide (n <> 0)). split; [|rewrite Hpo; reflexivity]. split; [done| |].
    + rewrite Hin. intros k n Hk. apply elem_of_list_lookup_2 in Hk. rewrite !elem_of_cons, elem_of_nil in Hk.
      apply bool_decide_eq_true_2. lia.
    + rewrite Hks. clear. intros n a b Hk Hn Hab.
      do 8 (destruct n as [|n]; [vm_compute in Hk; first [done | injection Hk as <- <-; first [done | reflexivity]]|]). vm_compute in Hk. discriminate Hk.
Qed.
Print Assumptions C52_function_refuted.

(* preserve_depth does not preserve the depth: the arrival depths are not updated
   when replacements are chosen.  11 = (x1 & x2) & (x3 & x4) may become a chain
   (depth 3), 12 = x5 & !11, and 15 = (x6 & !12) & (x7 & x8), a conjunction of four
   above 12, may become a chain for the depth 3 of 12; the gates up to 21 make the
   depth 6. *)
Definition rw_deep : aig := build (replicate 8 OpPi ++ [OpAnd (a_ 1) (a_ 2); OpAnd (a_ 3) (a_ 4); OpAnd (a_ 9) (a_ 10);
  OpAnd (a_ 5) (n_ 11); OpAnd (a_ 6) (n_ 12); OpAnd (a_ 7) (a_ 8); OpAnd (a_ 13) (a_ 14);
  OpAnd (a_ 1) (n_ 2); OpAnd (a_ 3) (n_ 16); OpAnd (a_ 4) (n_ 17); OpAnd (a_ 1) (n_ 18); OpAnd (a_ 2) (n_ 19); OpAnd (a_ 3) (n_ 20);
  OpPo (a_ 15); OpPo (a_ 21)]).
Definition deeper_check (o : option aig) : bool := match o with
  | Some r => bool_decide (take 1 (pos r) = [a_ 15]) && bool_decide (3 ∈ pis r) &&
      bool_decide (drop 9 (take 16 (ks r)) = [(a_ 3, a_ 4); (a_ 2, a_ 9); (a_ 1, a_ 10); (a_ 5, n_ 11); (a_ 8, n_ 12); (a_ 7, a_ 13); (a_ 6, a_ 14)])
  | None => false end.
Lemma deeper_sound r : deeper_check (Some r) = true -> po_cost unit_cost false r 7.
Proof.
  cbn. rewrite !andb_true_iff, !bool_decide_eq_true. intros [[H1 H2] H3]. right.
  destruct (pos r) as [|f l] eqn:E; [done|]. cbn in H1. injection H1 as ->. exists (a_ 15), 7. split; [left|]. split; [|done].
  assert (Hk : forall i k, [(a_ 3, a_ 4); (a_ 2, a_ 9); (a_ 1, a_ 10); (a_ 5, n_ 11); (a_ 8, n_ 12); (a_ 7, a_ 13); (a_ 6, a_ 14)] !! i = Some k -> ks r !! (9 + i) = Some k).
  { intros i k Hi. rewrite <- H3, lookup_drop in Hi. by apply lookup_take_Some in Hi as [Hi _]. }
  apply (pc_gate unit_cost false r 15 (a_ 6) (a_ 14) (a_ 14) 6 (Hk 6 _ eq_refl)); [done|done|by right|].
  apply (pc_gate unit_cost false r 14 (a_ 7) (a_ 13) (a_ 13) 5 (Hk 5 _ eq_refl)); [done|done|by right|].
  apply (pc_gate unit_cost false r 13 (a_ 8) (n_ 12) (n_ 12) 4 (Hk 4 _ eq_refl)); [done|done|by right|].
  apply (pc_gate unit_cost false r 12 (a_ 5) (n_ 11) (n_ 11) 3 (Hk 3 _ eq_refl)); [done|done|by right|].
  apply (pc_gate unit_cost false r 11 (a_ 1) (a_ 10) (a_ 10) 2 (Hk 2 _ eq_refl)); [done|done|by right|].
  apply (pc_gate unit_cost false r 10 (a_ 2) (a_ 9) (a_ 9) 1 (Hk 1 _ eq_refl)); [done|done|by right|].
  apply (pc_gate unit_cost false r 9 (a_ 3) (a_ 4) (a_ 3) 0 (Hk 0 _ eq_refl)); [done|done|by left|].
  apply pc_source. by right.
Qed.
Lemma deep_run : deeper_check (default_rewrite and4_db (RwPs true true) rw_deep) = true.
Proof. vm_compute. reflexivity. Qed.
Lemma deep_depth w : po_cost unit_cost false rw_deep w -> w <= 6.
Proof.
  assert (R : reachable rw_deep) by (apply build_reachable; vm_compute; reflexivity).
  destruct (C22_levels unit_cost false rw_deep (repeat 0 22) 0 (reach_net _ R)) as (v & E & _ & _ & [_ H]).
  - vm_compute. reflexivity.
  - repeat constructor.
  - assert (Hd : match update_levels unit_cost false rw_deep (repeat 0 22) 0 with Some v => bool_decide (dv_depth v = 6) | None => false end = true) by (vm_compute; reflexivity).
    revert Hd. rewrite E. intros Hd%bool_decide_eq_true. rewrite Hd in H. apply H.
Qed.
Theorem C52_depth_refuted : exists s vs r, reachable s /\ is_combinational s = true /\ small 12 s /\ db_valid vs /\
  default_rewrite vs (RwPs true true) s = Some r /\
  (forall w, po_cost unit_cost false s w -> w <= 6) /\ po_cost unit_cost false r 7.
Proof.
  assert (R : reachable rw_deep) by (apply build_reachable; vm_compute; reflexivity).
  assert (Sm : small 12 rw_deep) by (split; vm_compute; congruence).
  assert (C : is_combinational rw_deep = true) by (vm_compute; reflexivity).
  pose proof deep_depth as Hd. pose proof deep_run as H. revert R Sm C Hd H. generalize rw_deep as s. intros s R Sm C Hd H.
  destruct (default_rewrite and4_db (RwPs true true) s) as [r|] eqn:E; [|discriminate H].
  exists s, and4_db, r. split; [exact R|]. split; [exact C|]. split; [exact Sm|]. split; [exact and4_valid|]. split; [exact E|].
  split; [exact Hd|]. apply deeper_sound. exact H.
Qed.
Print Assumptions C52_depth_refuted.
