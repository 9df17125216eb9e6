From Verif Require Import Base Aig AigSem AigProofs Topo TopoProofs Clean NetProofs CleanProofs Tt TtProofs TtCache Klut KlutSem KlutProofs Isop IsopProofs Cnf.

Lemma odd_lxor1 l : N.odd (N.lxor l 1) = negb (N.odd l).
Proof. by rewrite <- !N.bit0_odd, N.lxor_spec, xorb_true_r. Qed.
Lemma div2_lxor1 l : N.div2 (N.lxor l 1) = N.div2 l.
Proof. rewrite !N.div2_spec, N.shiftr_lxor. change (N.shiftr 1 1) with 0%N. apply N.lxor_0_r. Qed.
Lemma lit_var_not l : lit_var (lit_not l) = lit_var l.
Proof. unfold lit_var, lit_not. by rewrite div2_lxor1. Qed.
Lemma lit_val_not x l : lit_val x (lit_not l) = negb (lit_val x l).
Proof. unfold lit_val. rewrite lit_var_not. unfold lit_not. rewrite odd_lxor1. by destruct (x _), (N.odd l). Qed.
Lemma lit_val_not_cond x l c : lit_val x (lit_not_cond l c) = xorb (lit_val x l) c.
Proof. destruct c; cbn; [|by rewrite xorb_false_r]. fold (lit_not l). rewrite lit_val_not. by destruct (lit_val x l). Qed.
Lemma lit_var_not_cond l c : lit_var (lit_not_cond l c) = lit_var l.
Proof. destruct c; [apply lit_var_not|done]. Qed.
Lemma lit_var_make v c : lit_var (make_lit v c) = v.
Proof.
  unfold lit_var, make_lit. rewrite N.div2_div.
  replace (2 * N.of_nat v + N.b2n c)%N with (N.b2n c + N.of_nat v * 2)%N by lia.
  rewrite N.div_add by done. destruct c; cbn; lia.
Qed.
Lemma odd_make v c : N.odd (make_lit v c) = c.
Proof.
  unfold make_lit. rewrite N.odd_add, N.odd_mul. cbn. by destruct c.
Qed.
Lemma lit_val_make x v c : lit_val x (make_lit v c) = xorb (x v) c.
Proof. unfold lit_val. by rewrite lit_var_make, odd_make. Qed.

Definition cls_b (x : nat -> bool) (cls : list (list N)) : bool := forallb (existsb (lit_val x)) cls.
Lemma cls_b_spec x cls : cnf_sat x cls <-> cls_b x cls = true.
Proof.
  unfold cnf_sat, cls_b, clause_sat. rewrite forallb_forall. split; intros H c Hc.
  - apply existsb_exists. apply elem_of_list_In in Hc. destruct (H c Hc) as (l & Hl%elem_of_list_In & Hv). eauto.
  - apply elem_of_list_In in Hc. specialize (H c Hc). apply existsb_exists in H as (l & Hl%elem_of_list_In & Hv). eauto.
Qed.
Ltac cls_tac := rewrite cls_b_spec; unfold cls_b; cbn [forallb existsb]; rewrite ?lit_val_not;
  repeat match goal with |- context [lit_val ?x ?l] => destruct (lit_val x l) end; done.

Lemma on_and_spec x c a b : cnf_sat x (on_and c a b) <-> lit_val x c = lit_val x a && lit_val x b.
Proof. unfold on_and. cls_tac. Qed.
Lemma on_or_spec x c a b : cnf_sat x (on_or c a b) <-> lit_val x c = lit_val x a || lit_val x b.
Proof. unfold on_or. cls_tac. Qed.
Lemma on_xor_spec x c a b : cnf_sat x (on_xor c a b) <-> lit_val x c = xorb (lit_val x a) (lit_val x b).
Proof. unfold on_xor. cls_tac. Qed.
Lemma on_maj_spec x d a b c : cnf_sat x (on_maj d a b c) <->
  lit_val x d = (lit_val x a && lit_val x b) || (lit_val x a && lit_val x c) || (lit_val x b && lit_val x c).
Proof. unfold on_maj. cls_tac. Qed.
Lemma on_xor3_spec x d a b c : cnf_sat x (on_xor3 d a b c) <->
  lit_val x d = xorb (lit_val x a) (xorb (lit_val x b) (lit_val x c)).
Proof. unfold on_xor3. cls_tac. Qed.
Lemma on_ite_spec x d a b c : cnf_sat x (on_ite d a b c) <->
  lit_val x d = if lit_val x a then lit_val x b else lit_val x c.
Proof. unfold on_ite. cls_tac. Qed.

(* value of the k-th literal of a list *)
Definition nth_val (x : nat -> bool) (lits : list N) (k : nat) : bool :=
  match lits !! k with Some l => lit_val x l | None => false end.

Lemma cube_clause_spec x lits : forall i c, clause_sat x (cube_clause i lits c) <->
  exists k l, lits !! k = Some l /\ get_cmask c (i + k) = true /\ lit_val x l = get_cbit c (i + k).
Proof.
  induction lits as [|l r IH]; intros i c; cbn [cube_clause].
  - split; [intros (l & Hl & _); by apply elem_of_nil in Hl|intros (k & l & Hk & _); done].
  - assert (E : clause_sat x ((if get_cmask c i then [lit_not_cond l (negb (get_cbit c i))] else []) ++ cube_clause (S i) r c) <->
      (get_cmask c i = true /\ lit_val x l = get_cbit c i) \/ clause_sat x (cube_clause (S i) r c)).
    { unfold clause_sat. setoid_rewrite elem_of_app. split.
      - intros (y & [Hy|Hy] & Hv); [|right; eauto]. left. destruct (get_cmask c i); [|by apply elem_of_nil in Hy].
        apply elem_of_list_singleton in Hy as ->. rewrite lit_val_not_cond in Hv. split; [done|].
        by destruct (lit_val x l), (get_cbit c i).
      - intros [[Hm Hv]|(y & Hy & Hv)]; [|eauto]. rewrite Hm. eexists. split; [left; apply elem_of_list_here|].
        rewrite lit_val_not_cond, Hv. by destruct (get_cbit c i). }
    rewrite E, IH. split.
    + intros [[Hm Hv]|(k & y & Hk & Hm & Hv)].
      * exists 0, l. by rewrite Nat.add_0_r.
      * exists (S k), y. rewrite Nat.add_succ_r. done.
    + intros ([|k] & y & Hk & Hm & Hv).
      * left. injection Hk as ->. by rewrite Nat.add_0_r in *.
      * right. exists k, y. rewrite Nat.add_succ_r in *. done.
Qed.

Lemma on_function_spec f ls t : tt_wf t -> nv t = length ls -> exists cls, on_function f ls t = Some cls /\
  forall x, cnf_sat x cls <-> lit_val x f = tt_eval t (nth_val x ls).
Proof.
  intros Ht Hn. unfold on_function. destruct (cnf_characteristic_spec t Ht) as (cs & -> & Hb & Hs).
  eexists. split; [reflexivity|]. intros x. rewrite Forall_forall in Hb.
  set (y := nth_val x (ls ++ [f])).
  assert (Ey : y (nv t) = lit_val x f) by (unfold y, nth_val; rewrite Hn, list_lookup_middle; done).
  assert (Et : tt_eval t y = tt_eval t (nth_val x ls)).
  { apply eval_ext. intros k Hk. unfold y, nth_val. rewrite lookup_app_l by lia. done. }
  rewrite <- Ey, <- Et, <- Hs. unfold cnf_sat. setoid_rewrite elem_of_list_fmap. split.
  - intros H c Hc. assert (Hx : clause_sat x (cube_clause 0 (ls ++ [f]) c)) by (apply H; eauto).
    apply cube_clause_spec in Hx as (k & l & Hk & Hm & Hv). cbn in Hm, Hv. exists k. split; [done|].
    unfold y, nth_val. by rewrite Hk.
  - intros H ? (c & -> & Hc). destruct (H c Hc) as (k & Hm & Hv). apply cube_clause_spec.
    assert (Hk : k < length (ls ++ [f])) by (rewrite app_length; cbn; specialize (Hb c Hc k Hm); lia).
    apply lookup_lt_is_Some_2 in Hk as [l Hl]. exists k, l. split; [done|]. split; [done|].
    cbn. rewrite <- Hv. unfold y, nth_val. by rewrite Hl.
Qed.

Lemma sieve_spec p l : (forall n, n ∈ l -> is_Some (p n)) ->
  sieve p l = Some (filter (fun n => p n = Some true) l).
Proof.
  induction l as [|n r IH]; intros H; [done|]. cbn [sieve].
  destruct (H n (elem_of_list_here _ _)) as [b Hb]. rewrite Hb. cbn [mbind option_bind].
  rewrite IH by (intros; apply H; by apply elem_of_list_further). cbn [mbind option_bind]. f_equal.
  destruct b; [by rewrite filter_cons_True|by rewrite filter_cons_False by congruence].
Qed.

Lemma opt_map_spec {A B} (f : A -> option B) l : (forall a, a ∈ l -> is_Some (f a)) ->
  exists l', opt_map f l = Some l' /\ Forall2 (fun a b => f a = Some b) l l'.
Proof.
  induction l as [|a r IH]; intros H; [by exists []|]. cbn [opt_map].
  destruct (H a (elem_of_list_here _ _)) as [b Hb]. rewrite Hb. cbn [mbind option_bind].
  destruct IH as (l' & -> & HF); [intros; apply H; by apply elem_of_list_further|].
  eexists. split; [reflexivity|]. by constructor.
Qed.

Lemma gates_spec s : network s -> alive s ->
  exists gs, gates s = Some gs /\ NoDup gs /\ forall n, n ∈ gs <-> is_gate s n.
Proof.
  intros W Ha. unfold gates. rewrite sieve_spec.
  - eexists. split; [reflexivity|]. split; [apply NoDup_filter, NoDup_seq|].
    intros n. rewrite elem_of_list_filter, elem_of_seq. unfold is_ci. split.
    + intros [H [H1 H2]]. destruct (lookup_lt_is_Some_2 (ks s) n) as [[a b] E]; [unfold size in *; lia|].
      rewrite E in H. cbn in H. destruct (bool_decide_reflect (a = b)) as [->|Hab]; cbn in H.
      { destruct (is_dead s n); cbn in H; congruence. }
      exists a, b. split; [done|]. split; [lia|done].
    + intros Hg. pose proof (Ha n Hg) as Hd. destruct Hg as (a & b & E & Hn & Hab). rewrite E. cbn.
      rewrite Hd. rewrite bool_decide_false by done. cbn. split; [done|]. apply lookup_lt_Some in E. unfold size. lia.
  - intros n [H1 H2]%elem_of_seq. unfold is_ci, is_dead.
    destruct (lookup_lt_is_Some_2 (ks s) n) as [[a b] E]; [unfold size in *; lia|]. rewrite E. cbn.
    destruct (lookup_lt_is_Some_2 (fo s) n) as [h Hh]; [rewrite (net_fo _ W); lia|]. rewrite Hh. cbn. eauto.
Qed.

Definition lits_val (x : nat -> bool) (lits : list N) (n : nat) : bool :=
  match lits !! n with Some l => lit_val x l | None => false end.

Lemma sig_lit_some lits f : sidx f < length lits -> exists l, sig_lit lits f = Some l /\
  forall x, lit_val x l = sval (lits_val x lits) f.
Proof.
  intros H. unfold sig_lit, sval, lits_val. destruct (lookup_lt_is_Some_2 _ _ H) as [l Hl]. rewrite Hl. cbn.
  eexists. split; [reflexivity|]. intros x. apply lit_val_not_cond.
Qed.

Lemma cnf_app x l1 l2 : cnf_sat x (l1 ++ l2) <-> cnf_sat x l1 /\ cnf_sat x l2.
Proof. unfold cnf_sat. setoid_rewrite elem_of_app. naive_solver. Qed.
Lemma cnf_cons x c l : cnf_sat x (c :: l) <-> clause_sat x c /\ cnf_sat x l.
Proof. unfold cnf_sat. setoid_rewrite elem_of_cons. naive_solver. Qed.
Lemma cnf_concat x ls : cnf_sat x (concat ls) <-> forall l, l ∈ ls -> cnf_sat x l.
Proof.
  induction ls as [|l r IH]; cbn.
  - split; [intros _ l H; by apply elem_of_nil in H|intros _ l H; by apply elem_of_nil in H].
  - rewrite cnf_app, IH. setoid_rewrite elem_of_cons. naive_solver.
Qed.
Lemma clause_unit x l : clause_sat x [l] <-> lit_val x l = true.
Proof.
  unfold clause_sat. setoid_rewrite elem_of_list_singleton. naive_solver.
Qed.

Lemma generate_cnf_spec s lits : network s -> alive s -> length lits = size s ->
  exists cls os, generate_cnf s lits = Some (cls, os) /\
    Forall2 (fun f l => forall x, lit_val x l = sval (lits_val x lits) f) (pos s) os /\
    (forall x, cnf_sat x cls <->
       valuation s (fun k => match ins s !! k with Some n => lits_val x lits n | None => false end) (lits_val x lits)) /\
    (forall n l, is_gate s n -> lits !! n = Some l -> exists c, c ∈ cls /\ lit_not l ∈ c).
Proof.
  intros W Ha Hlen. unfold generate_cnf.
  destruct (gates_spec s W Ha) as (gs & -> & Hnd & Hgs).
  destruct (lookup_lt_is_Some_2 lits 0) as [c0 Hc0]; [rewrite Hlen; by apply net_size|]. rewrite Hc0. cbn [mbind option_bind].
  assert (G : forall n, is_gate s n -> exists cl, gate_clauses s lits n = Some cl /\
    (forall x, cnf_sat x cl <-> exists a b, ks s !! n = Some (a, b) /\ lits_val x lits n = sval (lits_val x lits) a && sval (lits_val x lits) b) /\
    (forall l, lits !! n = Some l -> exists c, c ∈ cl /\ lit_not l ∈ c)).
  { intros n (a & b & E & Hn & Hab). unfold gate_clauses. rewrite E. cbn [mbind option_bind fst snd].
    destruct (sig_lit_some lits a) as (la & -> & Hla).
    { rewrite Hlen. apply (net_gate _ W n). exists a, b. naive_solver. }
    destruct (sig_lit_some lits b) as (lb & -> & Hlb).
    { rewrite Hlen. apply (net_gate _ W n). exists a, b. naive_solver. }
    cbn [mbind option_bind]. destruct (lookup_lt_is_Some_2 lits n) as [c Hc]; [rewrite Hlen; by apply lookup_lt_Some in E|].
    rewrite Hc. cbn [mbind option_bind]. eexists. split; [reflexivity|]. split.
    - intros x. rewrite on_and_spec, Hla, Hlb. unfold lits_val at 3. rewrite Hc. split; [eauto|].
      intros (a' & b' & E' & ?). congruence.
    - intros l [= ->]. eexists. split; [apply elem_of_list_here|]. apply elem_of_list_further, elem_of_list_here. }
  destruct (opt_map_spec (gate_clauses s lits) gs) as (cls & Ecls & HF).
  { intros n Hn%Hgs. destruct (G n Hn) as (cl & -> & _). done. }
  rewrite Ecls. cbn [mbind option_bind].
  destruct (opt_map_spec (sig_lit lits) (pos s)) as (os & Eos & HO).
  { intros f Hf%take_elem. pose proof (net_out _ W) as Ho. rewrite Forall_forall in Ho.
    destruct (sig_lit_some lits f) as (l & -> & _); [rewrite Hlen; by apply Ho|done]. }
  rewrite Eos. cbn [mbind option_bind]. eexists _, _. split; [reflexivity|]. split; [|split].
  - eapply Forall2_impl; [exact HO|]. cbn beta. intros f l Hf x. unfold sig_lit in Hf. unfold sval, lits_val.
    destruct (lits !! sidx f); [|done]. cbn in Hf. injection Hf as <-. apply lit_val_not_cond.
  - intros x. rewrite cnf_cons, clause_unit, lit_val_not, cnf_concat. split.
    + intros [H0 H]. split.
      * unfold lits_val. rewrite Hc0. by destruct (lit_val x c0).
      * intros k n Hk. by rewrite Hk.
      * intros n a b E Hn Hab. assert (Hg : is_gate s n) by (by exists a, b).
        destruct (G n Hg) as (cl & Ecl & Hs & _). apply Hgs in Hg.
        apply elem_of_list_lookup in Hg as [i Hi]. destruct (Forall2_lookup_l _ _ _ _ _ HF Hi) as (cl' & Hi' & E').
        assert (cl' = cl) by congruence. subst cl'. pose proof (proj1 (Hs x) (H cl (elem_of_list_lookup_2 _ _ _ Hi'))) as (a' & b' & E2 & Hv). congruence.
    + intros V. split.
      * pose proof (val_const _ _ _ V) as H0. unfold lits_val in H0. rewrite Hc0 in H0. by rewrite H0.
      * intros cl [i Hi]%elem_of_list_lookup. destruct (Forall2_lookup_r _ _ _ _ _ HF Hi) as (n & Hn & E).
        apply elem_of_list_lookup_2, Hgs in Hn. destruct (G n Hn) as (cl' & Ecl & Hs & _).
        assert (cl' = cl) by congruence. subst cl'. apply Hs. destruct Hn as (a & b & En & Hn0 & Hab).
        exists a, b. split; [done|]. by apply (val_gate _ _ _ V).
  - intros n l Hg Hl. destruct (G n Hg) as (cl & Ecl & _ & Hin). destruct (Hin l Hl) as (c & Hc & Hlc).
    exists c. split; [|done]. apply elem_of_list_further. apply Hgs in Hg.
    apply elem_of_list_lookup in Hg as [i Hi]. destruct (Forall2_lookup_l _ _ _ _ _ HF Hi) as (cl' & Hi' & E').
    assert (cl' = cl) by congruence. subst cl'. apply elem_of_list_In, in_concat. exists cl.
    split; apply elem_of_list_In; [by eapply elem_of_list_lookup_2|done].
Qed.

Lemma number_spec ns : forall v m, NoDup ns -> Forall (fun n => n < length m) ns ->
  length (number v ns m) = length m /\
  (forall i n, ns !! i = Some n -> number v ns m !! n = Some (make_lit (v + i) false)) /\
  (forall n, n ∉ ns -> number v ns m !! n = m !! n).
Proof.
  induction ns as [|n r IH]; intros v m Hnd HF; cbn [number].
  - split; [done|]. split; [done|done].
  - apply NoDup_cons in Hnd as [Hni Hnd]. apply Forall_cons in HF as [Hn HF].
    destruct (IH (S v) (<[n := make_lit v false]> m) Hnd) as (H1 & H2 & H3); [by rewrite insert_length|].
    rewrite insert_length in H1. split; [done|]. split.
    + intros [|i] k Hk; cbn in Hk.
      * injection Hk as <-. rewrite H3 by done. rewrite list_lookup_insert by done. by rewrite Nat.add_0_r.
      * rewrite (H2 i k Hk). f_equal. f_equal. lia.
    + intros k Hk. apply not_elem_of_cons in Hk as [Hk1 Hk2]. rewrite H3 by done. by rewrite list_lookup_insert_ne.
Qed.

(* the default literals: node 0 has variable 0, the k-th input variable k+1, and
   gates have distinct variables from the offset on *)
Lemma node_literals_spec s offset : network s -> alive s -> npi s = length (ins s) ->
  exists lits, node_literals s offset = Some lits /\ length lits = size s /\
    lits !! 0 = Some (make_lit 0 false) /\
    (forall k n, ins s !! k = Some n -> lits !! n = Some (make_lit (S k) false)) /\
    exists gs, NoDup gs /\ (forall n, n ∈ gs <-> is_gate s n) /\
      forall i n, gs !! i = Some n -> lits !! n = Some (make_lit (default (npi s + 1) offset + i) false).
Proof.
  intros W Ha Hc. unfold node_literals. destruct (gates_spec s W Ha) as (gs & -> & Hnd & Hgs). cbn [mbind option_bind].
  assert (Ep : pis s = ins s) by (unfold pis; rewrite Hc; by rewrite firstn_all).
  rewrite Ep. pose proof (net_ins_nodup s W) as Hi0. apply NoDup_cons in Hi0 as [H0 Hi0].
  set (m0 := <[0 := make_lit 0 false]> (repeat 0%N (size s))).
  assert (L0 : length m0 = size s) by (unfold m0; rewrite insert_length; apply repeat_length).
  destruct (number_spec (ins s) 1 m0 Hi0) as (H1 & H2 & H3); [rewrite L0; by apply net_ins_valid|].
  destruct (number_spec gs (default (npi s + 1) offset) (number 1 (ins s) m0) Hnd) as (K1 & K2 & K3).
  { apply Forall_forall. intros n Hn%Hgs. rewrite H1, L0. destruct Hn as (a & b & E & _). by apply lookup_lt_Some in E. }
  assert (Hni : forall n, n ∈ 0 :: ins s -> n ∉ gs).
  { intros n Hn Hg%Hgs. destruct Hg as (a & b & E & Hn0 & Hab). apply elem_of_cons in Hn as [->|Hn]; [done|].
    apply elem_of_list_lookup in Hn as [k Hk]. destruct (net_in _ W k n Hk) as [_ E2]. congruence. }
  eexists. split; [reflexivity|]. split; [congruence|]. split; [|split].
  - rewrite K3 by (apply Hni, elem_of_list_here). rewrite H3 by done. unfold m0. rewrite list_lookup_insert; [done|].
    rewrite repeat_length. by apply net_size.
  - intros k n Hk. rewrite K3 by (apply Hni, elem_of_list_further; by eapply elem_of_list_lookup_2). by rewrite (H2 k n Hk).
  - exists gs. split; [done|]. split; [done|]. exact K2.
Qed.

Lemma lits_val_lookup x lits n l : lits !! n = Some l -> lits_val x lits n = lit_val x l.
Proof. intros H. unfold lits_val. by rewrite H. Qed.

Lemma list_index (gs : list nat) n : n ∈ gs -> exists i, gs !! i = Some n.
Proof. apply elem_of_list_lookup. Qed.

Lemma default_cnf_exact s offset : network s -> alive s -> npi s = length (ins s) ->
  (forall o, offset = Some o -> npi s < o) ->
  exists lits cls os, node_literals s offset = Some lits /\ generate_cnf s lits = Some (cls, os) /\ cnf_exact s lits cls os.
Proof.
  intros W Ha Hc Ho. destruct (node_literals_spec s offset W Ha Hc) as (lits & Elits & Hlen & H0 & Hin & gs & Hnd & Hgs & Hg).
  set (g0 := default (npi s + 1) offset) in *.
  assert (Hg0 : npi s < g0) by (unfold g0; destruct offset as [o|]; [by apply Ho|cbn; lia]).
  destruct (generate_cnf_spec s lits W Ha Hlen) as (cls & os & E & HO & Hs & _).
  exists lits, cls, os. split; [done|]. split; [done|].
  (* the variable of each node *)
  assert (Kind : forall n l, lits !! n = Some l ->
    (n = 0 /\ l = make_lit 0 false) \/ (exists k, ins s !! k = Some n /\ l = make_lit (S k) false) \/
    (exists i, gs !! i = Some n /\ l = make_lit (g0 + i) false)).
  { intros n l Hl. destruct (net_cases s n W) as [->|[(k & Hk)|(Hn & a & b & En & Hab)]].
    - rewrite <- Hlen. by eapply lookup_lt_Some.
    - left. split; [done|]. congruence.
    - right; left. exists k. split; [done|]. rewrite (Hin k n Hk) in Hl. congruence.
    - right; right. assert (Hgn : n ∈ gs) by (apply Hgs; by exists a, b). apply list_index in Hgn as [i Hi].
      exists i. split; [done|]. rewrite (Hg i n Hi) in Hl. congruence. }
  assert (Inv : forall x, cnf_sat x cls <-> exists v, valuation s (fun k => x (S k)) v /\ forall n l, lits !! n = Some l -> lit_val x l = v n).
  { intros x. rewrite Hs. split.
    - intros V. exists (lits_val x lits). split; [|intros n l Hl; by rewrite (lits_val_lookup x _ _ _ Hl)].
      eapply valuation_env; [|exact V]. intros k Hk. cbn. destruct (lookup_lt_is_Some_2 _ _ Hk) as [n Hn]. rewrite Hn.
      rewrite (lits_val_lookup x _ _ _ (Hin k n Hn)), lit_val_make. by rewrite xorb_false_r.
    - intros (v & V & Hv).
      assert (Ev : forall n, n < size s -> lits_val x lits n = v n).
      { intros n Hn. rewrite <- Hlen in Hn. destruct (lookup_lt_is_Some_2 _ _ Hn) as [l Hl].
        rewrite (lits_val_lookup x _ _ _ Hl). by apply Hv. }
      split.
      + rewrite Ev by (by apply net_size). apply V.
      + intros k n Hk. by rewrite Hk.
      + intros n a b En Hn Hab. assert (Hf : forall f, f = a \/ f = b -> sidx f < size s).
        { intros f Hf. apply (net_gate _ W n). exists a, b. naive_solver. }
        unfold sval. rewrite !Ev; [|by apply Hf; right|by apply Hf; left|by apply lookup_lt_Some in En].
        by apply (val_gate _ _ _ V). }
  split.
  - done.
  - intros n l Hl. destruct (Kind n l Hl) as [[_ ->]|[(k & _ & ->)|(i & _ & ->)]]; apply odd_make.
  - intros n n' l l' Hl Hl' Hv.
    destruct (Kind n l Hl) as [[-> ->]|[(k & Hk & ->)|(i & Hi & ->)]];
      destruct (Kind n' l' Hl') as [[-> ->]|[(k' & Hk' & ->)|(i' & Hi' & ->)]]; rewrite !lit_var_make in Hv; try lia.
    + injection Hv as <-. congruence.
    + apply lookup_lt_Some in Hk. lia.
    + apply lookup_lt_Some in Hk'. lia.
    + assert (i = i') as <- by lia. congruence.
  - exact Inv.
  - intros env. destruct (net_valuation s env W) as [v V].
    set (x := fun k => match k with 0 => false | S j => if decide (S j <= npi s) then env j else
       match gs !! (S j - g0) with Some n => if decide (g0 <= S j) then v n else false | None => false end end).
    assert (Hx : forall k, k < npi s -> x (S k) = env k) by (intros k Hk; unfold x; by rewrite decide_True by lia).
    exists x. split; [|done]. apply Inv. exists v. split.
    + eapply valuation_env; [|exact V]. intros k Hk. rewrite Hx; [done|lia].
    + intros n l Hl. destruct (Kind n l Hl) as [[-> ->]|[(k & Hk & ->)|(i & Hi & ->)]];
        rewrite lit_val_make, xorb_false_r.
      * symmetry. apply V.
      * rewrite Hx by (apply lookup_lt_Some in Hk; lia). symmetry. by apply (val_input _ _ _ V).
      * unfold x. destruct (g0 + i) as [|j] eqn:Ej; [lia|]. rewrite decide_False by lia.
        replace (S j - g0) with i by lia. rewrite Hi. rewrite decide_True by lia. done.
  - intros x v i f l V Hx Hf Hl. rewrite (Forall2_lookup_lr _ _ _ _ _ _ HO Hf Hl x).
    apply Inv in Hx as (v' & V' & Hv').
    assert (Hfs : sidx f < size s).
    { pose proof (net_out _ W) as Ho'. rewrite Forall_forall in Ho'. apply Ho'. eapply take_elem, elem_of_list_lookup_2, Hf. }
    unfold sval. f_equal. rewrite <- Hlen in Hfs. destruct (lookup_lt_is_Some_2 _ _ Hfs) as [lf Hlf].
    rewrite (lits_val_lookup x _ _ _ Hlf), (Hv' _ _ Hlf). rewrite Hlen in Hfs.
    exact (net_valuation_unique s _ v' v W V' V _ Hfs).
  - apply Forall2_length in HO. rewrite <- HO. unfold pos. rewrite take_length.
    pose proof (net_npo _ W). lia.
Qed.

(* ---- equivalence checking ---- *)
Lemma nvars_elem cls c l : c ∈ cls -> l ∈ c -> lit_var l < nvars cls.
Proof.
  unfold nvars. induction cls as [|d cls IH]; intros Hc Hl; [by apply elem_of_nil in Hc|]. cbn [foldr].
  assert (Mono : forall e m, m <= foldr (fun l m => Nat.max (S (lit_var l)) m) m e).
  { induction e as [|y e IHe]; intros m; cbn; [lia|]. specialize (IHe m). lia. }
  apply elem_of_cons in Hc as [->|Hc].
  - clear IH. generalize (foldr (fun c m => foldr (fun l m => Nat.max (S (lit_var l)) m) m c) 0 cls) as m. intros m.
    induction d as [|y d IHd]; [by apply elem_of_nil in Hl|]. cbn. apply elem_of_cons in Hl as [->|Hl]; [lia|].
    specialize (IHd Hl). lia.
  - specialize (IH Hc Hl). eapply Nat.lt_le_trans; [exact IH|]. apply Mono.
Qed.

Lemma computes_out s env b : network s -> npo s = 1 -> computes s env [b] <->
  exists v f, valuation s env v /\ pos s = [f] /\ b = sval v f.
Proof.
  intros W Hn.
  assert (Hp : exists f, pos s = [f]).
  { assert (Hl : length (pos s) = 1) by (unfold pos; rewrite take_length; pose proof (net_npo _ W); lia).
    destruct (pos s) as [|f [|g r]]; cbn in Hl; try lia. by exists f. }
  destruct Hp as [f Hf]. unfold computes. rewrite Hf. cbn. split.
  - intros (v & V & [= ->]). exists v, f. done.
  - intros (v & f' & V & [= <-] & ->). exists v. done.
Qed.

Lemma opt_map_inv {A B} (f : A -> option B) l r : opt_map f l = Some r -> Forall2 (fun x y => f x = Some y) l r.
Proof.
  revert r. induction l as [|x l IH]; intros r; cbn [opt_map]; [intros [= <-]; constructor|].
  destruct (f x) eqn:E; [|done]. cbn [mbind option_bind]. destruct (opt_map f l); [|done]. intros [= <-]. constructor; [done|by apply IH].
Qed.

(* what one call of the checker does *)
Lemma ec_unfold solve s : network s -> alive s -> npi s = length (ins s) -> npo s = 1 ->
  exists lits cls out f lf, pos s = [f] /\ lits !! sidx f = Some lf /\ out = lit_not_cond lf (scompl f) /\
    cnf_exact s lits cls [out] /\
    lits !! 0 = Some (make_lit 0 false) /\ (forall k n, ins s !! k = Some n -> lits !! n = Some (make_lit (S k) false)) /\
    (forall n l, is_gate s n -> lits !! n = Some l -> npi s < lit_var l < nvars cls) /\
    0 < nvars cls /\ ((forall n, ~ is_gate s n) -> nvars cls = 1) /\
    equivalence_checking solve s = if decide (lit_var out < nvars cls) then
      match solve cls out with
      | Timeout => Some (None, [])
      | Failure => Some (Some true, [])
      | Success m => cex ← opt_map (fun i => m !! i) (seq 1 (npi s)); Some (Some false, cex)
      end else None.
Proof.
  intros W Ha Hc Hpo.
  destruct (node_literals_spec s None W Ha Hc) as (lits' & El' & Hlen & H0 & Hin & gs & Hnd & Hgs & Hgl).
  destruct (default_cnf_exact s None W Ha Hc) as (lits & cls & os & El & Ec & X); [done|].
  assert (lits' = lits) by congruence. subst lits'.
  destruct (generate_cnf_spec s lits W Ha Hlen) as (cls' & os' & Ec' & HO & Hval & Hgc).
  assert (cls' = cls /\ os' = os) as [-> ->] by (split; congruence).
  pose proof (ce_outs _ _ _ _ X) as Hol. destruct os as [|out [|]]; cbn in Hol; try lia.
  assert (Hp : exists f, pos s = [f]).
  { assert (Hl : length (pos s) = 1) by (unfold pos; rewrite take_length; pose proof (net_npo _ W); lia).
    destruct (pos s) as [|f [|g r]]; cbn in Hl; try lia. by exists f. }
  destruct Hp as [f Hf].
  assert (Hout : exists lf, lits !! sidx f = Some lf /\ out = lit_not_cond lf (scompl f)).
  { clear -Ec Hf. unfold generate_cnf in Ec.
    destruct (lits !! 0); [|done]. cbn [mbind option_bind] in Ec. destruct (gates s); [|done]. cbn [mbind option_bind] in Ec.
    destruct (opt_map (gate_clauses s lits) _); [|done]. cbn [mbind option_bind] in Ec. rewrite Hf in Ec. cbn [opt_map] in Ec.
    unfold sig_lit in Ec. destruct (lits !! sidx f) as [lf|] eqn:Elf; [|done]. cbn in Ec.
    injection Ec as _ <-. exists lf. done. }
  destruct Hout as (lf & Hlf & Hout).
  exists lits, cls, out, f, lf. split; [done|]. split; [done|]. split; [done|]. split; [done|]. split; [done|]. split; [done|].
  split; [|split; [|split]].
  - intros n l Hn Hl. split.
    + assert (Hgn := Hn). apply Hgs in Hgn. apply list_index in Hgn as [i Hi]. rewrite (Hgl i n Hi) in Hl. injection Hl as <-.
      rewrite lit_var_make. cbn. lia.
    + destruct (Hgc n l Hn Hl) as (c & Hcc & Hlc). rewrite <- lit_var_not. by eapply nvars_elem.
  - unfold generate_cnf in Ec. rewrite H0 in Ec. cbn [mbind option_bind] in Ec. destruct (gates s); [|done]. cbn [mbind option_bind] in Ec.
    destruct (opt_map (gate_clauses s lits) _); [|done]. cbn [mbind option_bind] in Ec.
    destruct (opt_map (sig_lit lits) _); [|done]. cbn [mbind option_bind] in Ec. injection Ec as <- _.
    apply Nat.le_lt_trans with (lit_var (lit_not (make_lit 0 false))); [lia|].
    eapply nvars_elem; [apply elem_of_list_here|apply elem_of_list_here].
  - intros Hng. unfold generate_cnf in Ec. rewrite H0 in Ec. cbn [mbind option_bind] in Ec.
    destruct (gates_spec s W Ha) as (gs' & Egs & _ & Hgs'). rewrite Egs in Ec.
    assert (gs' = []) as ->.
    { destruct gs' as [|n r]; [done|]. exfalso. apply (Hng n), Hgs', elem_of_list_here. }
    cbn [mbind option_bind opt_map] in Ec.
    destruct (opt_map (sig_lit lits) _); [|done]. cbn [mbind option_bind concat] in Ec. injection Ec as <- _. reflexivity.
  - unfold equivalence_checking. rewrite decide_True by done. rewrite El. cbn [mbind option_bind]. rewrite Ec. done.
Qed.

Lemma ec_sound solve s r cex : correct_solver solve -> network s -> alive s -> npi s = length (ins s) -> npo s = 1 ->
  equivalence_checking solve s = Some (r, cex) ->
    (r = Some true -> forall env, computes s env [false]) /\
    (r = Some false -> length cex = npi s /\ computes s (fun k => nth k cex false) [true]) /\
    (complete_solver solve -> r <> None).
Proof.
  intros Hsv W Ha Hc Hpo.
  destruct (ec_unfold solve s W Ha Hc Hpo) as (lits & cls & out & f & lf & Hf & Hlf & Hout & X & H0 & Hin & Hg & Hpos & Hone & ->).
  case_decide as Hnv; [|done].
  destruct (solve cls out) as [m| |] eqn:Es.
  - destruct (solve_sat _ Hsv cls out m Es) as (Hm1 & Hm2 & Hm3).
    destruct (opt_map _ _) as [cx|] eqn:Ecex; [|done]. cbn [mbind option_bind]. intros [= <- <-].
    split; [done|]. split; [|done]. intros _. apply opt_map_inv in Ecex as HF.
    assert (Hlc : length cx = npi s) by (apply Forall2_length in HF; rewrite seq_length in HF; lia). split; [done|].
    assert (Hcex : forall k, k < npi s -> nth k cx false = nth (S k) m false).
    { intros k Hk. assert (Hs : seq 1 (npi s) !! k = Some (1 + k)) by (by apply lookup_seq_lt).
      destruct (Forall2_lookup_l _ _ _ _ _ HF Hs) as (b & Hb & Hmb). cbn in Hmb.
      rewrite !nth_lookup, Hb. cbn in Hmb. rewrite Hmb. done. }
    assert (Hm2' := Hm2). apply (ce_sat _ _ _ _ X) in Hm2 as (v & V & Hv).
    apply computes_out; [done|done|]. exists v, f. split; [|split; [done|]].
    + eapply valuation_env; [|exact V]. intros k Hk. cbn. rewrite Hcex; [done|lia].
    + rewrite <- Hm3. eapply (ce_out _ _ _ _ X _ v 0); [done|done|by rewrite Hf|done].
  - intros [= <- <-]. split; [|done]. intros _ env.
    destruct (ce_all _ _ _ _ X env) as (x & Hx & Henv).
    assert (Hx' := Hx). apply (ce_sat _ _ _ _ X) in Hx' as (v & V & Hv).
    apply computes_out; [done|done|]. exists v, f. split; [|split; [done|]].
    + eapply valuation_env; [|exact V]. intros k Hk. cbn. apply Henv. lia.
    + rewrite <- (solve_unsat _ Hsv cls out Es x Hx). eapply (ce_out _ _ _ _ X _ v 0); [done|done|by rewrite Hf|done].
  - intros [= <- <-]. split; [done|]. split; [done|]. intros Hcs. by destruct (Hcs cls out Hnv).
Qed.

Lemma ec_total solve s : correct_solver solve -> network s -> alive s -> npi s = length (ins s) -> npo s = 1 ->
  (exists n, is_gate s n) \/ npi s = 0 \/ pos s = [Sig 0 false] ->
  exists r cex, equivalence_checking solve s = Some (r, cex).
Proof.
  intros Hsv W Ha Hc Hpo Hcase.
  destruct (ec_unfold solve s W Ha Hc Hpo) as (lits & cls & out & f & lf & Hf & Hlf & Hout & X & H0 & Hin & Hg & Hpos & Hone & ->).
  assert (Hvar : lit_var out = lit_var lf) by (rewrite Hout; apply lit_var_not_cond).
  assert (Hnv : lit_var out < nvars cls).
  { rewrite Hvar. assert (Hsz : sidx f < size s) by (apply lookup_lt_Some in Hlf; rewrite <- (ce_len _ _ _ _ X); done).
    destruct (net_cases s (sidx f) W Hsz) as [E|[(j & Hj)|(Hk & a & b & En & Hab)]].
    - rewrite E in Hlf. assert (lf = make_lit 0 false) as -> by congruence. by rewrite lit_var_make.
    - rewrite (Hin j _ Hj) in Hlf. injection Hlf as <-. rewrite lit_var_make. pose proof (lookup_lt_Some _ _ _ Hj) as Hjl.
      destruct Hcase as [(n & Hn)|[E|E]].
      + destruct (lookup_lt_is_Some_2 lits n) as [l Hl]; [rewrite (ce_len _ _ _ _ X); destruct Hn as (a & b & E & _); by apply lookup_lt_Some in E|].
        specialize (Hg n l Hn Hl). lia.
      + lia.
      + exfalso. rewrite Hf in E. injection E as ->. cbn in Hj. by destruct (net_in _ W _ _ Hj).
    - eapply Hg; [|exact Hlf]. by exists a, b. }
  rewrite decide_True by done.
  destruct (solve cls out) as [m| |] eqn:Es; [|by eexists _, _|by eexists _, _].
  destruct (solve_sat _ Hsv cls out m Es) as (Hm1 & Hm2 & Hm3).
  destruct (opt_map_spec (fun i => m !! i) (seq 1 (npi s))) as (cex & Ecex & HF).
  { intros i [Hi1 Hi2]%elem_of_seq. apply lookup_lt_is_Some_2. rewrite Hm1.
    destruct Hcase as [(n & Hn)|[E|E]]; [|lia|].
    - destruct (lookup_lt_is_Some_2 lits n) as [l Hl]; [rewrite (ce_len _ _ _ _ X); destruct Hn as (a & b & E & _); by apply lookup_lt_Some in E|].
      specialize (Hg n l Hn Hl). lia.
    - exfalso. rewrite Hf in E. injection E as ->. cbn in Hlf. assert (lf = make_lit 0 false) as -> by congruence.
      assert (Hm2' := Hm2). apply (ce_sat _ _ _ _ X) in Hm2 as (v & V & Hv).
      pose proof (ce_out _ _ _ _ X _ v 0 (Sig 0 false) out V Hm2') as Ho. rewrite Hf in Ho. specialize (Ho eq_refl eq_refl).
      rewrite Hm3 in Ho. pose proof (val_const _ _ _ V) as V0. unfold sval in Ho. cbn [sidx scompl] in Ho. rewrite V0 in Ho. done. }
  cbn beta in Ecex. rewrite Ecex. cbn [mbind option_bind]. by eexists _, _.
Qed.

Lemma ec_fails solve s : correct_solver solve -> complete_solver solve -> network s -> alive s -> npi s = length (ins s) -> npo s = 1 ->
  (forall n, ~ is_gate s n) -> npi s <> 0 -> pos s <> [Sig 0 false] ->
  equivalence_checking solve s = None.
Proof.
  intros Hsv Hcs W Ha Hc Hpo Hng Hnpi Hnf.
  destruct (ec_unfold solve s W Ha Hc Hpo) as (lits & cls & out & f & lf & Hf & Hlf & Hout & X & H0 & Hin & Hg & Hpos & Hone & ->).
  specialize (Hone Hng).
  assert (Hvar : lit_var out = lit_var lf) by (rewrite Hout; apply lit_var_not_cond).
  case_decide as Hnv; [|done]. rewrite Hone, Hvar in Hnv.
  assert (Hsz : sidx f < size s) by (apply lookup_lt_Some in Hlf; rewrite <- (ce_len _ _ _ _ X); done).
  assert (E : sidx f = 0).
  { destruct (net_cases s (sidx f) W Hsz) as [E|[(j & Hj)|(Hk & a & b & En & Hab)]]; [done| |].
    - rewrite (Hin j _ Hj) in Hlf. injection Hlf as <-. rewrite lit_var_make in Hnv. lia.
    - destruct (Hng (sidx f)). by exists a, b. }
  assert (Hcf : scompl f = true).
  { destruct f as [i []]; cbn in *; [done|]. subst i. by rewrite Hf in Hnf. }
  rewrite E in Hlf. assert (lf = make_lit 0 false) as -> by congruence.
  destruct (solve cls out) as [m| |] eqn:Es.
  - destruct (solve_sat _ Hsv cls out m Es) as (Hm1 & _ & _). destruct (npi s) as [|p] eqn:Ep; [done|]. cbn [seq opt_map].
    rewrite Hone in Hm1. destruct m as [|b [|]]; cbn in Hm1; try lia. done.
  - exfalso. destruct (ce_all _ _ _ _ X (fun _ => false)) as (x & Hx & _).
    pose proof (solve_unsat _ Hsv cls out Es x Hx) as Hl. assert (Hx' := Hx). apply (ce_sat _ _ _ _ X) in Hx' as (v & V & Hv).
    pose proof (ce_out _ _ _ _ X x v 0 f out V Hx) as Ho. rewrite Hf in Ho. specialize (Ho eq_refl eq_refl).
    rewrite Hl in Ho. unfold sval in Ho. rewrite E, Hcf, (val_const _ _ _ V) in Ho. done.
  - exfalso. apply (Hcs cls out); [|done]. rewrite Hone, Hvar. done.
Qed.

(* ---- a correct solver exists ---- *)
Fixpoint bools (n : nat) : list (list bool) :=
  match n with O => [[]] | S m => map (cons false) (bools m) ++ map (cons true) (bools m) end.
Lemma bools_elem n l : length l = n -> l ∈ bools n.
Proof.
  revert l. induction n as [|n IH]; intros [|b l] Hl; cbn in Hl; try lia; [apply elem_of_list_here|].
  cbn. apply elem_of_app. destruct b; [right|left]; apply elem_of_list_fmap_1, IH; lia.
Qed.
Lemma bools_length n l : l ∈ bools n -> length l = n.
Proof.
  revert l. induction n as [|n IH]; cbn; intros l Hl; [by apply elem_of_list_singleton in Hl as ->|].
  apply elem_of_app in Hl as [(l' & -> & H)%elem_of_list_fmap|(l' & -> & H)%elem_of_list_fmap]; cbn; f_equal; by apply IH.
Qed.
Definition brute : solver := fun cls a =>
  if decide (lit_var a < nvars cls) then
    match List.find (fun m => cls_b (fun i => nth i m false) cls && lit_val (fun i => nth i m false) a) (bools (nvars cls)) with
    | Some m => Success m
    | None => Failure
    end
  else Timeout.
Lemma cnf_sat_ext x y cls : (forall i, i < nvars cls -> x i = y i) -> cnf_sat x cls -> cnf_sat y cls.
Proof.
  intros H Hs c Hc. destruct (Hs c Hc) as (l & Hl & Hv). exists l. split; [done|].
  unfold lit_val in *. rewrite <- H; [done|]. by eapply nvars_elem.
Qed.
Lemma brute_correct : correct_solver brute /\ complete_solver brute.
Proof.
  split; [split|].
  - intros cls a m. unfold brute. case_decide as Ha; [|done].
    destruct (List.find _ _) as [m'|] eqn:E; [|done]. intros [= ->].
    apply List.find_some in E as [Hm%elem_of_list_In Hb]. apply andb_true_iff in Hb as [Hb1 Hb2].
    apply cls_b_spec in Hb1. split; [by apply bools_length|]. done.
  - intros cls a. unfold brute. case_decide as Ha; [|done].
    destruct (List.find _ _) as [m'|] eqn:E; [done|]. intros _ x Hx.
    destruct (lit_val x a) eqn:Ex; [|done]. exfalso.
    set (m := map x (seq 0 (nvars cls))).
    assert (Hm : forall i, i < nvars cls -> nth i m false = x i).
    { intros i Hi. unfold m. rewrite nth_lookup, map_lookup, lookup_seq_lt by done. done. }
    pose proof (List.find_none _ _ E m) as Hn. cbn beta in Hn.
    assert (Hin : In m (bools (nvars cls))).
    { apply elem_of_list_In, bools_elem. unfold m. by rewrite map_length, seq_length. }
    specialize (Hn Hin). apply andb_false_iff in Hn as [Hn|Hn].
    + assert (cls_b (fun i => nth i m false) cls = true); [|congruence]. apply cls_b_spec.
      eapply cnf_sat_ext; [|exact Hx]. intros i Hi. by rewrite Hm.
    + unfold lit_val in Hn, Ex. rewrite Hm in Hn by done. congruence.
  - intros cls a Ha. unfold brute. rewrite decide_True by done. by destruct (List.find _ _).
Qed.

(* ---- LUT networks ---- *)
Lemma kgates_spec s : kwf s ->
  exists gs, kgates s = Some gs /\ NoDup gs /\ forall n, n ∈ gs <-> 1 < n /\ exists x, kn s !! n = Some x /\ isci x = false.
Proof.
  intros W. unfold kgates. rewrite sieve_spec.
  - eexists. split; [reflexivity|]. split; [apply NoDup_filter, NoDup_seq|].
    intros n. rewrite elem_of_list_filter, elem_of_seq. split.
    + intros [H [H1 H2]]. destruct (lookup_lt_is_Some_2 (kn s) n) as [x E]; [unfold ksize in *; lia|].
      rewrite (kis_ci_isci _ _ _ E) in H. cbn in H. split; [lia|]. exists x. split; [done|]. by destruct (isci x).
    + intros (H1 & x & E & Hx). rewrite (kis_ci_isci _ _ _ E), Hx. split; [done|].
      apply lookup_lt_Some in E. unfold ksize. lia.
  - intros n [H1 H2]%elem_of_seq. destruct (lookup_lt_is_Some_2 (kn s) n) as [x E]; [unfold ksize in *; lia|].
    rewrite (kis_ci_isci _ _ _ E). done.
Qed.

Lemma opt_lookup_spec (lits : list N) cs l : opt_map (fun c => lits !! c) cs = Some l ->
  forall k x, nth_val x l k = match cs !! k with Some c => lits_val x lits c | None => false end.
Proof.
  revert l. induction cs as [|c cs IH]; intros l; cbn [opt_map].
  - intros [= <-] k x. done.
  - destruct (lits !! c) as [y|] eqn:Ey; [|done]. cbn [mbind option_bind].
    destruct (opt_map _ cs) as [ys|] eqn:E; [|done]. intros [= <-] [|k] x.
    + unfold nth_val. cbn. unfold lits_val. by rewrite Ey.
    + exact (IH ys eq_refl k x).
Qed.

Lemma kgenerate_cnf_spec s lits c0 : kwf s -> length lits = ksize s ->
  lits !! 0 = Some c0 -> lits !! 1 = Some (lit_not c0) ->
  exists cls os, kgenerate_cnf s lits = Some (cls, os) /\
    Forall2 (fun f l => lits !! f = Some l) (kpos s) os /\
    (forall x, cnf_sat x cls <->
       kvaluation s (fun k => match kins s !! k with Some n => lits_val x lits n | None => false end) (lits_val x lits)).
Proof.
  intros W Hlen Hc0 Hc1. unfold kgenerate_cnf.
  destruct (kgates_spec s W) as (gs & -> & Hnd & Hgs). rewrite Hc0. cbn [mbind option_bind].
  assert (G : forall n y, 1 < n -> kn s !! n = Some y -> isci y = false -> exists cl f, kgate_clauses s lits n = Some cl /\
    cache_get (kfn y) (kc s) = Some f /\
    (forall x, cnf_sat x cl <-> lits_val x lits n = tt_eval f (fun k => match kch y !! k with Some c => lits_val x lits c | None => false end))).
  { intros n y Hn Ey Hy. destruct (kw_gate _ W n y Hn Ey Hy) as (Hch & f & Hf & Hwf & Hnv).
    unfold kgate_clauses. rewrite Ey. cbn [mbind option_bind].
    destruct (opt_map_spec (fun c => lits !! c) (kch y)) as (cl & Ecl & HF).
    { intros c Hc. apply lookup_lt_is_Some_2. rewrite Forall_forall in Hch. specialize (Hch c Hc). apply lookup_lt_Some in Ey. unfold ksize in Hlen. lia. }
    cbn beta in Ecl. rewrite Ecl. cbn [mbind option_bind].
    destruct (lookup_lt_is_Some_2 lits n) as [l Hl]; [rewrite Hlen; by apply lookup_lt_Some in Ey|]. rewrite Hl. cbn [mbind option_bind].
    unfold knode_function. rewrite Ey. cbn [mbind option_bind]. rewrite Hf. cbn [mbind option_bind].
    destruct (on_function_spec l cl f Hwf) as (cls & -> & Hs); [rewrite Hnv; by apply Forall2_length in HF|].
    exists cls, f. split; [done|]. split; [done|]. intros x. rewrite Hs. rewrite (lits_val_lookup x _ _ _ Hl).
    rewrite (eval_ext f (nth_val x cl) (fun k => match kch y !! k with Some c => lits_val x lits c | None => false end)); [done|].
    intros k _. by apply opt_lookup_spec. }
  destruct (opt_map_spec (kgate_clauses s lits) gs) as (cls & Ecls & HF).
  { intros n Hn%Hgs. destruct Hn as (Hn & y & Ey & Hy). destruct (G n y Hn Ey Hy) as (cl & f & -> & _). done. }
  rewrite Ecls. cbn [mbind option_bind].
  destruct (opt_map_spec (fun f => lits !! f) (kpos s)) as (os & Eos & HO).
  { intros f Hf%take_elem. pose proof (kw_out _ W) as Ho. rewrite Forall_forall in Ho. apply lookup_lt_is_Some_2. rewrite Hlen. by apply Ho. }
  cbn beta in Eos. rewrite Eos. cbn [mbind option_bind]. eexists _, _. split; [reflexivity|]. split; [exact HO|].
  intros x. rewrite cnf_cons, clause_unit, lit_val_not, cnf_concat.
  assert (E0 : lits_val x lits 0 = lit_val x c0) by (by apply lits_val_lookup).
  assert (E1 : lits_val x lits 1 = negb (lit_val x c0)) by (rewrite (lits_val_lookup _ _ _ _ Hc1); apply lit_val_not).
  split.
  - intros [H0 H]. split.
    + rewrite E0. by destruct (lit_val x c0).
    + by rewrite E1.
    + intros k n Hk. by rewrite Hk.
    + intros n y f Hn Ey Hci Hf. rewrite (kis_ci_isci _ _ _ Ey) in Hci. injection Hci as Hci.
      destruct (G n y Hn Ey Hci) as (cl & f' & Ecl & Hf' & Hs). assert (f' = f) by congruence. subst f'.
      assert (Hg : n ∈ gs) by (apply Hgs; eauto). apply list_index in Hg as [i Hi].
      destruct (Forall2_lookup_l _ _ _ _ _ HF Hi) as (cl' & Hi' & E').
      assert (cl' = cl) by congruence. subst cl'. apply Hs, H. by eapply elem_of_list_lookup_2.
  - intros V. split.
    + pose proof (kv_1 _ _ _ V) as H1. by rewrite E1 in H1.
    + intros cl [i Hi]%elem_of_list_lookup. destruct (Forall2_lookup_r _ _ _ _ _ HF Hi) as (n & Hn & E).
      apply elem_of_list_lookup_2, Hgs in Hn as (Hn & y & Ey & Hy). destruct (G n y Hn Ey Hy) as (cl' & f & Ecl & Hf & Hs).
      assert (cl' = cl) by congruence. subst cl'. apply Hs. apply (kv_gate _ _ _ V); [done|done| |done].
      by rewrite (kis_ci_isci _ _ _ Ey), Hy.
Qed.

Lemma kvaluation_env s env env' v : (forall k, k < length (kins s) -> env k = env' k) -> kvaluation s env v -> kvaluation s env' v.
Proof.
  intros He [V1 V2 V3 V4]. split; [done|done| |done]. intros k n Hk. rewrite <- He by (by apply lookup_lt_Some in Hk). by apply V3.
Qed.

Lemma kdefault_cnf_exact s offset : kwf s -> knpi s = length (kins s) ->
  (forall o, offset = Some o -> knpi s < o) ->
  exists lits cls os, knode_literals s offset = Some lits /\ kgenerate_cnf s lits = Some (cls, os) /\ kcnf_exact s lits cls os.
Proof.
  intros W Hc Ho. unfold knode_literals. destruct (kgates_spec s W) as (gs & -> & Hnd & Hgs). cbn [mbind option_bind].
  assert (Ep : kpis s = kins s) by (unfold kpis; rewrite Hc; by rewrite firstn_all).
  rewrite Ep. pose proof (kw_size _ W) as Hsz.
  set (m0 := <[1 := make_lit 0 true]> (<[0 := make_lit 0 false]> (repeat 0%N (ksize s)))).
  assert (L0 : length m0 = ksize s) by (unfold m0; rewrite !insert_length; apply repeat_length).
  destruct (number_spec (kins s) 1 m0 (kw_nd _ W)) as (H1 & H2 & H3).
  { rewrite L0. apply Forall_lookup. intros k n Hk. destruct (kw_in _ W k n Hk) as (_ & x & E & _). by apply lookup_lt_Some in E. }
  set (g0 := default (knpi s + 1) offset).
  assert (Hg0 : knpi s < g0) by (unfold g0; destruct offset as [o|]; [by apply Ho|cbn; lia]).
  destruct (number_spec gs g0 (number 1 (kins s) m0) Hnd) as (K1 & K2 & K3).
  { apply Forall_forall. intros n Hn%Hgs. rewrite H1, L0. destruct Hn as (_ & x & E & _). by apply lookup_lt_Some in E. }
  set (lits := number g0 gs (number 1 (kins s) m0)) in *.
  assert (Hlen : length lits = ksize s) by congruence.
  assert (Hig : forall k n, kins s !! k = Some n -> n ∉ gs).
  { intros k n Hk Hn%Hgs. destruct (kw_in _ W k n Hk) as (_ & x & E & Hx). destruct Hn as (_ & y & E' & Hy). congruence. }
  assert (Hin : forall k n, kins s !! k = Some n -> lits !! n = Some (make_lit (S k) false)).
  { intros k n Hk. rewrite K3 by (by eapply Hig). by rewrite (H2 k n Hk). }
  assert (Hsm : forall n, n < 2 -> n ∉ gs /\ n ∉ kins s).
  { intros n Hn. split; [intros [H _]%Hgs; lia|]. intros [k Hk]%elem_of_list_lookup. destruct (kw_in _ W k n Hk) as [H _]. lia. }
  assert (H0 : lits !! 0 = Some (make_lit 0 false)).
  { rewrite K3 by (apply Hsm; lia). rewrite H3 by (apply Hsm; lia). unfold m0. rewrite list_lookup_insert_ne by done.
    rewrite list_lookup_insert; [done|rewrite repeat_length; lia]. }
  assert (H1' : lits !! 1 = Some (make_lit 0 true)).
  { rewrite K3 by (apply Hsm; lia). rewrite H3 by (apply Hsm; lia). unfold m0.
    rewrite list_lookup_insert; [done|rewrite insert_length, repeat_length; lia]. }
  clearbody lits. clear H1 H2 H3 K1 K3 m0 L0.
  destruct (kgenerate_cnf_spec s lits (make_lit 0 false) W Hlen H0) as (cls & os & E & HO & Hs); [by rewrite H1'|].
  exists lits, cls, os. split; [done|]. split; [done|].
  assert (Kind : forall n l, lits !! n = Some l ->
    (n = 0 /\ l = make_lit 0 false) \/ (n = 1 /\ l = make_lit 0 true) \/ (exists k, kins s !! k = Some n /\ l = make_lit (S k) false) \/
    (exists i, gs !! i = Some n /\ l = make_lit (g0 + i) false)).
  { intros n l Hl. destruct (decide (n = 0)) as [->|Hn0]; [left; split; [done|congruence]|].
    destruct (decide (n = 1)) as [->|Hn1]; [right; left; split; [done|congruence]|]. right; right.
    destruct (lookup_lt_is_Some_2 (kn s) n) as [y Ey]; [fold (ksize s); rewrite <- Hlen; by eapply lookup_lt_Some|].
    destruct (isci y) eqn:Hy.
    - left. pose proof (kw_ci _ W n y ltac:(lia) Ey Hy) as Hk. apply list_index in Hk as [k Hk]. exists k. split; [done|].
      rewrite (Hin k n Hk) in Hl. congruence.
    - right. assert (Hgn : n ∈ gs) by (apply Hgs; split; [lia|eauto]). apply list_index in Hgn as [i Hi]. exists i. split; [done|].
      rewrite (K2 i n Hi) in Hl. congruence. }
  assert (Inv : forall x, cnf_sat x cls <-> exists v, kvaluation s (fun k => x (S k)) v /\ forall n l, lits !! n = Some l -> lit_val x l = v n).
  { intros x. rewrite Hs. split.
    - intros V. exists (lits_val x lits). split; [|intros n l Hl; by rewrite (lits_val_lookup x _ _ _ Hl)].
      eapply kvaluation_env; [|exact V]. intros k Hk. cbn. destruct (lookup_lt_is_Some_2 _ _ Hk) as [n Hn]. rewrite Hn.
      rewrite (lits_val_lookup x _ _ _ (Hin k n Hn)), lit_val_make. by rewrite xorb_false_r.
    - intros (v & V & Hv).
      assert (Ev : forall n, n < ksize s -> lits_val x lits n = v n).
      { intros n Hn. rewrite <- Hlen in Hn. destruct (lookup_lt_is_Some_2 _ _ Hn) as [l Hl].
        rewrite (lits_val_lookup x _ _ _ Hl). by apply Hv. }
      split.
      + rewrite Ev by lia. apply V.
      + rewrite Ev by lia. apply V.
      + intros k n Hk. by rewrite Hk.
      + intros n y f Hn Ey Hci Hf. assert (Hci' := Hci). rewrite (kis_ci_isci _ _ _ Ey) in Hci'. injection Hci' as Hci'.
        destruct (kw_gate _ W n y Hn Ey Hci') as (Hch & _). rewrite Forall_forall in Hch.
        rewrite Ev by (by apply lookup_lt_Some in Ey). rewrite (kv_gate _ _ _ V n y f Hn Ey Hci Hf).
        apply eval_ext. intros k _. destruct (kch y !! k) as [c|] eqn:Ek; [|done].
        symmetry. apply Ev. apply lookup_lt_Some in Ey. specialize (Hch c (elem_of_list_lookup_2 _ _ _ Ek)). unfold ksize. lia. }
  split.
  - done.
  - intros n n' l l' Hl Hl' Hv.
    destruct (Kind n l Hl) as [[-> ->]|[[-> ->]|[(k & Hk & ->)|(i & Hi & ->)]]];
      destruct (Kind n' l' Hl') as [[-> ->]|[[-> ->]|[(k' & Hk' & ->)|(i' & Hi' & ->)]]]; rewrite !lit_var_make in Hv; try lia.
    + injection Hv as <-. left. congruence.
    + apply lookup_lt_Some in Hk. lia.
    + apply lookup_lt_Some in Hk'. lia.
    + assert (i = i') as <- by lia. left. congruence.
  - exact Inv.
  - intros env. destruct (kvaluation_exists s env W) as [v V].
    set (x := fun k => match k with 0 => false | S j => if decide (S j <= knpi s) then env j else
       match gs !! (S j - g0) with Some n => if decide (g0 <= S j) then v n else false | None => false end end).
    assert (Hx : forall k, k < knpi s -> x (S k) = env k) by (intros k Hk; unfold x; by rewrite decide_True by lia).
    exists x. split; [|done]. apply Inv. exists v. split.
    + eapply kvaluation_env; [|exact V]. intros k Hk. rewrite Hx; [done|lia].
    + intros n l Hl. destruct (Kind n l Hl) as [[-> ->]|[[-> ->]|[(k & Hk & ->)|(i & Hi & ->)]]]; rewrite lit_val_make.
      * symmetry. apply V.
      * symmetry. apply V.
      * rewrite xorb_false_r. rewrite Hx by (apply lookup_lt_Some in Hk; lia). symmetry. by apply (kv_in _ _ _ V).
      * rewrite xorb_false_r. unfold x. destruct (g0 + i) as [|j] eqn:Ej; [lia|]. rewrite decide_False by lia.
        replace (S j - g0) with i by lia. rewrite Hi. rewrite decide_True by lia. done.
  - intros x v i f l V Hx Hf Hl. pose proof (Forall2_lookup_lr _ _ _ _ _ _ HO Hf Hl) as Hfl. cbn in Hfl.
    apply Inv in Hx as (v' & V' & Hv'). rewrite (Hv' _ _ Hfl).
    apply (kvaluation_unique s _ v' v W V' V). apply lookup_lt_Some in Hfl. lia.
  - by apply Forall2_length in HO.
Qed.
