From Verif Require Import Base Aig AigSem AigHash AigProofs AigApi AigReach NetProofs Clean Cnf CnfProofs ConvertProofs Choice ChoiceProofs
  ChoiceSat ChoiceSatProofs PropChoiceSat NodeRewritingProofs ChoiceCompute.

(* ---- loops ---- *)
Lemma each_inv {S A} (f : A -> S -> option S) (I : list A -> S -> Prop) l x y : I [] x ->
  (forall p a q x y, l = p ++ a :: q -> I p x -> f a x = Some y -> I (p ++ [a]) y) ->
  each f l x = Some y -> I l y.
Proof.
  intros H0 Hs E.
  enough (G : forall q p x, l = p ++ q -> I p x -> each f q x = Some y -> I l y) by (by eapply (G l [])).
  clear x H0 E. induction q as [|a q IH]; intros p x El HI E; cbn [each] in E.
  - injection E as ->. rewrite app_nil_r in El. by subst.
  - apply bind_Some in E as (z & E1 & E2). apply (IH (p ++ [a]) z); [by rewrite <- app_assoc|by eapply Hs|done].
Qed.
Lemma each_total {S A} (f : A -> S -> option S) (I : list A -> S -> Prop) l x : I [] x ->
  (forall p a q x, l = p ++ a :: q -> I p x -> exists y, f a x = Some y /\ I (p ++ [a]) y) ->
  exists y, each f l x = Some y /\ I l y.
Proof.
  intros H0 Hs.
  enough (G : forall q p x, l = p ++ q -> I p x -> exists y, each f q x = Some y /\ I l y) by (by eapply (G l [])).
  clear x H0. induction q as [|a q IH]; intros p x El HI; cbn [each].
  - exists x. rewrite app_nil_r in El. by subst.
  - destruct (Hs p a q x El HI) as (z & E1 & HI'). rewrite E1. cbn [mbind option_bind].
    apply (IH (p ++ [a]) z); [by rewrite <- app_assoc|done].
Qed.

Lemma each_spec {S A} (f : A -> S -> option S) (I : list A -> S -> Prop) (N : Prop) l x : I [] x ->
  (forall p a q x, l = p ++ a :: q -> I p x -> match f a x with Some y => I (p ++ [a]) y | None => N end) ->
  match each f l x with Some y => I l y | None => N end.
Proof.
  intros H0 Hs.
  enough (G : forall q p x, l = p ++ q -> I p x -> match each f q x with Some y => I l y | None => N end) by (by eapply (G l [])).
  clear x H0. induction q as [|a q IH]; intros p x El HI; cbn [each].
  - rewrite app_nil_r in El. by subst.
  - specialize (Hs p a q x El HI). destruct (f a x) as [z|]; [|done]. cbn [mbind option_bind].
    apply (IH (p ++ [a]) z); [by rewrite <- app_assoc|done].
Qed.

(* ---- functions of nodes ---- *)
Lemma alike_refl s n : alike s n n.
Proof. exists false. intros env v _. by rewrite xorb_false_r. Qed.
Lemma alike_sym s n m : alike s n m -> alike s m n.
Proof.
  intros [c H]. exists c. intros env v Hv. rewrite (H env v Hv), xorb_assoc, xorb_nilpotent. by rewrite xorb_false_r.
Qed.
Lemma alike_trans s a b c : alike s a b -> alike s b c -> alike s a c.
Proof.
  intros [x H] [y K]. exists (xorb y x). intros env v Hv. by rewrite (H env v Hv), (K env v Hv), xorb_assoc.
Qed.

(* a valuation of a larger network is one of the smaller *)
Lemma valuation_prefix s t env v : (exists l, ks t = ks s ++ l) -> ins t = ins s -> valuation t env v -> valuation s env v.
Proof.
  intros [l El] Ei [V1 V2 V3]. split; [done|by rewrite <- Ei|]. intros n a b E. apply V3. rewrite El. by apply lookup_app_l_Some.
Qed.
Lemma alike_ext s t n m : (exists l, ks t = ks s ++ l) -> ins t = ins s -> alike s n m -> alike t n m.
Proof. intros E1 E2 [c H]. exists c. intros env v Hv. apply (H env). by eapply valuation_prefix. Qed.

(* f is the image of node n in network t *)
Definition mirrors (s t : aig) (n : nat) (f : signal) : Prop :=
  valid t f /\ forall env v, valuation s env v -> sval (ev t env) f = v n.

Lemma mirrors_ext s t t' n f : ext t t' -> mirrors s t n f -> mirrors s t' n f.
Proof.
  intros X [Hv H]. split; [by eapply ext_valid|]. intros env v V. by rewrite (ext_sval t t' env f X Hv), (H env v V).
Qed.
Lemma ev_same s t env n : ks t = ks s -> ev t env n = ev s env n.
Proof. intros E. unfold ev. by rewrite E. Qed.
Lemma mirrors_same s t t' n f : ks t' = ks t -> mirrors s t n f -> mirrors s t' n f.
Proof.
  intros X [Hv H]. split; [unfold valid, size in *; by rewrite X|]. intros env v V. unfold sval. rewrite (ev_same t t' env _ X).
  by apply H.
Qed.
Lemma mirrors_sxor s t n f g c m : mirrors s t n f -> sidx g = sidx f -> scompl g = xorb (scompl f) c ->
  (forall env v, valuation s env v -> v m = xorb (v n) c) -> mirrors s t m g.
Proof.
  intros [Hv H] E1 E2 Hc. split; [unfold valid in *; by rewrite E1|]. intros env v V. rewrite (Hc env v V), <- (H env v V).
  unfold sval. by rewrite E1, E2, xorb_assoc.
Qed.
Lemma mirrors_alike s t n m f g : network s -> reachable t -> mirrors s t n f -> mirrors s t m g -> alike s n m ->
  alike t (sidx f) (sidx g).
Proof.
  intros W R [Vf Hf] [Vg Hg] [c Hc]. exists (xorb (scompl f) (xorb (scompl g) c)). intros env w Hw.
  pose proof (reachable_wf _ R) as Wt. rewrite !(valuation_unique t env w Wt Hw) by done.
  destruct (net_valuation s env W) as [v V]. specialize (Hf env v V). specialize (Hg env v V). specialize (Hc env v V).
  unfold sval in Hf, Hg. rewrite <- Hf, <- Hg in Hc.
  destruct (ev t env (sidx f)), (ev t env (sidx g)), (scompl f), (scompl g), c; done.
Qed.
Lemma alike_mirrors s t n m f g : reachable t -> mirrors s t n f -> mirrors s t m g -> alike t (sidx f) (sidx g) -> alike s n m.
Proof.
  intros R [Vf Hf] [Vg Hg] [c Hc]. exists (xorb (scompl f) (xorb (scompl g) c)). intros env v V.
  pose proof (Hc env _ (ev_valuation t env (reachable_wf _ R))) as E. rewrite <- (Hf env v V), <- (Hg env v V). unfold sval. rewrite E.
  destruct (ev t env (sidx g)), (scompl f), (scompl g), c; done.
Qed.

(* phases tell how two nodes that are alike differ *)
Lemma alike_phase s n m pn pm : swept s -> n < size s -> m < size s -> ph s !! n = Some pn -> ph s !! m = Some pm -> alike s n m ->
  forall env v, valuation s env v -> v n = xorb (v m) (xorb pn pm).
Proof.
  intros P Hn Hm En Em [c Hc] env v V. destruct (net_valuation s (fun _ => false) (sp_net _ P)) as [v0 V0].
  rewrite (sp_phase _ P n v0 Hn V0) in En. rewrite (sp_phase _ P m v0 Hm V0) in Em. injection En as <-. injection Em as <-.
  rewrite (Hc _ _ V), (Hc _ _ V0). destruct (v m), (v0 m), c; done.
Qed.
Lemma reach_phase t n m pn pm : reachable t -> ph t !! n = Some pn -> ph t !! m = Some pm -> alike t n m ->
  forall env, ev t env n = xorb (ev t env m) (xorb pn pm).
Proof.
  intros R En Em [c Hc] env. pose proof (reachable_wf _ R) as W.
  rewrite (phase_exact t n pn _ R En (ev_valuation t _ W)), (phase_exact t m pm _ R Em (ev_valuation t _ W)).
  rewrite (Hc _ _ (ev_valuation t env W)), (Hc _ _ (ev_valuation t (fun _ => false) W)).
  set (x := ev t env m). set (y := ev t _ m). by destruct x, y, c.
Qed.

Lemma new_map_length sz : length (new_map sz) = sz.
Proof. unfold new_map. by rewrite insert_length, repeat_length. Qed.
Lemma new_map_lookup sz n o : new_map sz !! n = Some o -> (n = 0 /\ o = Some (get_constant false)) \/ (n <> 0 /\ o = None).
Proof.
  unfold new_map. destruct (decide (n = 0)) as [->|Hn].
  - destruct sz as [|sz]; [done|]. cbn. intros [= <-]. by left.
  - rewrite list_lookup_insert_ne by done. intros H. right. split; [done|]. apply elem_of_list_lookup_2, elem_of_list_In, repeat_spec in H. done.
Qed.
Lemma mirrors_const s t : reachable t -> mirrors s t 0 (get_constant false).
Proof.
  intros R. pose proof (reachable_wf _ R) as W. split; [by apply valid_const|]. intros env v V.
  by rewrite sval_const, (val_const _ _ _ V).
Qed.

(* ---- facts about the network ---- *)
Section net.
Context (s : aig) (P : swept s).
Lemma swept_in k n : ins s !! k = Some n -> n = S k.
Proof using P. rewrite (sp_ins _ P). intros H. apply lookup_seq in H. lia. Qed.
Lemma swept_ins_size : length (ins s) < size s.
Proof using P.
  destruct (decide (length (ins s) = 0)) as [->|H]; [apply net_size, P|].
  destruct (lookup_lt_is_Some_2 (ins s) (length (ins s) - 1)) as [n En]; [lia|]. pose proof (swept_in _ _ En).
  pose proof (net_ins_valid _ (sp_net _ P)) as Hv. rewrite Forall_lookup in Hv. specialize (Hv _ _ En). cbn in Hv. lia.
Qed.
Lemma swept_not_gate n : n ∈ ins s -> ~ is_gate s n.
Proof using P.
  intros Hn (a & b & E & H0 & Hab). apply (source_no_fanin s n (sidx a) (sp_net _ P)); [by apply elem_of_list_further|].
  exists a, b. naive_solver.
Qed.
Lemma gates_count gs : gates s = Some gs -> 1 + length (ins s) + length gs <= size s.
Proof using P.
  intros E. destruct (gates_spec s (sp_net _ P) (sp_live _ P)) as (gs' & E' & Hd & Hg). rewrite E in E'. injection E' as <-.
  assert (N : NoDup ((0 :: ins s) ++ gs)).
  { apply NoDup_app. split; [by apply net_ins_nodup, P|]. split; [|done]. intros n Hn Hin%Hg.
    apply elem_of_cons in Hn as [->|Hn]; [by destruct Hin as (? & ? & ? & ? & ?)|]. by apply (swept_not_gate n). }
  assert (L : length ((0 :: ins s) ++ gs) <= length (seq 0 (size s))).
  { apply NoDup_incl_length; [by apply NoDup_ListNoDup|]. intros n Hn%elem_of_list_In. apply in_seq.
    apply elem_of_app in Hn as [Hn|Hn%Hg].
    - apply elem_of_cons in Hn as [->|Hn]; [pose proof (net_size _ (sp_net _ P)); lia|].
      pose proof (net_ins_valid _ (sp_net _ P)) as Hv. rewrite Forall_forall in Hv. specialize (Hv n Hn). cbn in Hv. lia.
    - destruct Hn as (a & b & En & _). apply lookup_lt_Some in En. unfold size. lia. }
  rewrite seq_length, app_length in L. cbn in L. lia.
Qed.
Lemma gates_earlier gs p n q m : gates s = Some gs -> gs = p ++ n :: q -> m ∈ p -> m < n.
Proof using P.
  intros E El Hm. destruct (gates_spec s (sp_net _ P) (sp_live _ P)) as (gs' & E' & Hd & Hg). rewrite E in E'. injection E' as <-.
  destruct (decide (m < n)) as [|Hlt]; [done|exfalso].
  assert (Hmn : m <> n). { intros ->. subst gs. apply NoDup_app in Hd as (_ & Hd & _). by apply (Hd n); [|apply elem_of_list_here]. }
  apply elem_of_list_split in Hm as (p1 & p2 & ->).
  assert (n ∈ p1) as Hn.
  { eapply (gates_before s gs p1 m (p2 ++ n :: q)); [apply P|apply P|done| |apply Hg; rewrite El; apply elem_of_app; right; apply elem_of_list_here|lia].
    by rewrite El, <- app_assoc. }
  subst gs. apply NoDup_app in Hd as (_ & Hd & _). apply (Hd n); [apply elem_of_app; by left|apply elem_of_list_here].
Qed.
Lemma gate_fanins n a b : ks s !! n = Some (a, b) -> is_gate s n -> sidx a < n /\ sidx b < n.
Proof using P.
  intros E (a' & b' & E' & H0 & Hab). rewrite E in E'. injection E' as <- <-. split; apply (sp_order _ P); exists a, b; naive_solver.
Qed.
End net.

Lemma ins_before_gate s n m : swept s -> m ∈ ins s -> is_gate s n -> m < n.
Proof.
  intros P Hm Hn. destruct (decide (m < n)) as [|Hlt]; [done|exfalso]. apply (swept_not_gate s P n); [|done].
  rewrite (sp_ins _ P) in *. apply elem_of_seq. apply elem_of_seq in Hm. destruct Hn as (? & ? & ? & ? & _). lia.
Qed.

(* networks whose inputs are the nodes 1 .. k *)
Lemma in_value t k i env : reachable t -> ins t = seq 1 k -> i < k -> ev t env (S i) = env i.
Proof.
  intros R E Hi. apply ev_input; [by apply reachable_wf|]. rewrite E. by apply lookup_seq_lt.
Qed.
Lemma mirrors_in s t n : swept s -> reachable t -> ins t = seq 1 (length (ins s)) -> n ∈ ins s -> mirrors s t n (Sig n false).
Proof.
  intros P R E Hn. apply elem_of_list_lookup in Hn as [i Hi]. pose proof (swept_in s P i n Hi) as ->.
  pose proof (lookup_lt_Some _ _ _ Hi) as Hlt. split.
  - destruct (wf_in t (reachable_wf t R) i (S i)) as [_ K]; [rewrite E; by apply lookup_seq_lt|]. by apply lookup_lt_Some in K.
  - intros env v V. unfold sval. cbn. rewrite xorb_false_r. rewrite (in_value t (length (ins s)) i env R E Hlt).
    by rewrite (val_input _ _ _ V i _ Hi).
Qed.

(* the new node of a gate *)
Lemma mirrors_and s t n a b fa fb f t' : mirrors s t (sidx a) fa -> mirrors s t (sidx b) fb -> ks s !! n = Some (a, b) -> is_gate s n ->
  makes t (fun env => sval (ev t env) (sxor fa (scompl a)) && sval (ev t env) (sxor fb (scompl b))) f t' -> mirrors s t' n f.
Proof.
  intros [Va Ha] [Vb Hb] E (a' & b' & E' & H0 & Hab) (R & X & V & H). rewrite E in E'. injection E' as <- <-. split; [done|].
  intros env v Hv. rewrite H. rewrite (val_gate _ _ _ Hv n a b E H0 Hab). unfold sval in *. cbn.
  rewrite <- (Ha env v Hv), <- (Hb env v Hv). by rewrite !xorb_assoc.
Qed.
Lemma sxor_valid t f c : valid t f -> valid t (sxor f c).
Proof using. done. Qed.

(* ---- sweeping ---- *)
Section sweep.
Context (ps : sparams) (solve : oracle) (sim : nat -> nat) (s : aig) (P : swept s) (Ho : correct_oracle solve).

Record swinv (p : list nat) (w : sweep) : Prop := {
  sv_hist : phist ps solve (size s) (sw_net w) (sw_prover w);
  sv_ins : ins (sw_net w) = seq 1 (length (ins s));
  sv_size : size (sw_net w) <= 1 + length (ins s) + length p;
  sv_lm : length (sw_map w) = size s;
  sv_lr : length (sw_repr w) = size s;
  sv_cis : forall n, n ∈ ins s -> sw_map w !! n = Some (Some (Sig n false));
  sv_map : forall n f, sw_map w !! n = Some (Some f) -> mirrors s (sw_net w) n f /\ (n = 0 \/ n ∈ ins s \/ n ∈ p);
  sv_repr : forall n r, sw_repr w !! n = Some r -> r <= n /\ alike s n r
}.

Ltac keep I := first [exact (sv_hist _ _ I)|exact (sv_ins _ _ I)|exact (sv_size _ _ I)|exact (sv_lm _ _ I)|exact (sv_lr _ _ I)|exact (sv_cis _ _ I)|exact (sv_map _ _ I)|exact (sv_repr _ _ I)].

Lemma phist_reachable sz t p : phist ps solve sz t p -> reachable t.
Proof using Ho. intros H. apply (pi_reach _ _ _ _ _ (phist_inv ps solve sz t p Ho H)). Qed.

Lemma sweep_cis nb p0 : 0 < nb -> prover_init (size s) = Some p0 ->
  exists w, each sweep_ci (ins s) (Sweep (aig_init_n nb) (new_map (size s)) (seq 0 (size s)) p0) = Some w /\ swinv [] w.
Proof using All.
  intros Hb Ep.
  destruct (each_total sweep_ci (fun l w => reachable (sw_net w) /\ ins (sw_net w) = seq 1 (length l) /\ size (sw_net w) = S (length l) /\
     length (sw_map w) = size s /\ sw_repr w = seq 0 (size s) /\ sw_prover w = p0 /\ (forall n, n ∈ l -> sw_map w !! n = Some (Some (Sig n false))) /\
     forall n f, sw_map w !! n = Some (Some f) -> (n = 0 /\ f = get_constant false) \/ (n ∈ ins s /\ f = Sig n false))
    (ins s) (Sweep (aig_init_n nb) (new_map (size s)) (seq 0 (size s)) p0)) as (w & E & R & Hi & Hsz & Hlm & Hrp & Hpr & Hci & Hm).
  - cbn. split; [by constructor|]. split; [done|]. split; [done|]. split; [apply new_map_length|]. split; [done|]. split; [done|]. split; [by intros n Hn%elem_of_nil|].
    intros n f E. apply new_map_lookup in E as [[-> [= <-]]|[_ ?]]; [by left|done].
  - intros l a q w El (R & Hi & Hsz & Hlm & Hrp & Hpr & Hci & Hm). cbn [sweep_ci]. unfold sweep_ci.
    pose proof (create_pi_r (sw_net w) R) as H. apply wp_elim in H as (f & t & E & R' & Hf & Hk & Hi' & _).
    rewrite E. cbn [mbind option_bind].
    assert (Ea : ins s !! length l = Some a). { rewrite El. by rewrite lookup_app_r, Nat.sub_diag by lia. }
    pose proof (swept_in s P _ _ Ea) as Ha.
    assert (Hlt : a < size s). { pose proof (swept_ins_size s P). apply lookup_lt_Some in Ea. lia. }
    destruct (lookup_lt_is_Some_2 (sw_map w) a) as [o Eo]; [lia|]. rewrite Eo. cbn [mbind option_bind].
    eexists. split; [done|]. cbn. rewrite app_length. cbn. split; [done|]. split.
    { rewrite Hi', Hi, Hsz, seq_app. done. }
    split. { unfold size in *. rewrite Hk, app_length. cbn. lia. }
    split; [by rewrite insert_length|]. split; [done|]. split; [done|]. split.
    { intros n Hn. destruct (decide (n = a)) as [->|Hne].
      - rewrite list_lookup_insert by lia. rewrite Hf. do 3 f_equal. lia.
      - rewrite list_lookup_insert_ne by done. apply Hci. apply elem_of_app in Hn as [Hn|Hn%elem_of_list_singleton]; done. }
    intros n g. destruct (decide (n = a)) as [->|Hn].
    + rewrite list_lookup_insert by lia. intros [= <-]. right. split; [by eapply elem_of_list_lookup_2|]. rewrite Hf. f_equal. lia.
    + rewrite list_lookup_insert_ne by done. apply Hm.
  - exists w. split; [done|]. split.
    + rewrite Hpr. apply ph_init; [done| |done]. rewrite Hsz. pose proof (swept_ins_size s P). lia.
    + done.
    + cbn. lia.
    + done.
    + by rewrite Hrp, seq_length.
    + done.
    + intros n f E'. destruct (Hm n f E') as [[-> ->]|[Hn ->]].
      * split; [by apply mirrors_const|by left].
      * split; [by apply mirrors_in|by right; left].
    + intros n r E'. rewrite Hrp in E'. apply lookup_seq in E' as [-> _]. split; [done|apply alike_refl].
Qed.

Lemma sweep_node_inv gs p n q f w w' : gates s = Some gs -> gs = p ++ n :: q -> swinv (p ++ [n]) w ->
  sw_map w !! n = Some (Some f) -> sweep_node ps solve sim s n (sidx f) w = Some w' -> swinv (p ++ [n]) w'.
Proof using All.
  intros Eg El I Ef E.
  assert (Hg : is_gate s n).
  { destruct (gates_spec s (sp_net _ P) (sp_live _ P)) as (gs' & E' & Hd & Hg). rewrite Eg in E'. injection E' as <-.
    apply Hg. rewrite El. apply elem_of_app. right. apply elem_of_list_here. }
  assert (Hns : n < size s) by (apply lookup_lt_Some in Ef; rewrite (sv_lm _ _ I) in Ef; lia).
  destruct (sv_map _ _ I n f Ef) as [Hmf _].
  unfold sweep_node in E. case_decide as Hr; [by injection E as <-|]. set (r := sim n) in *.
  destruct (sw_map w !! r) as [o|] eqn:Er; [|done]. cbn [mbind option_bind] in E. destruct o as [g|]; [|by injection E as <-].
  destruct (sv_map _ _ I r g Er) as [Hmg Hrc].
  assert (Hrn : r < n).
  { destruct Hrc as [->|[Hin|Hin]].
    - destruct Hg as (? & ? & ? & ? & _). lia.
    - by eapply ins_before_gate.
    - apply elem_of_app in Hin as [Hin|Hin%elem_of_list_singleton]; [by eapply gates_earlier|done]. }
  pose proof (phist_reachable _ _ _ (sv_hist _ _ I)) as R.
  assert (Hcis : forall x m, m ∈ ins s -> <[n := x]> (sw_map w) !! m = Some (Some (Sig m false))).
  { intros x m Hm. rewrite list_lookup_insert_ne; [by apply I|]. intros <-. by apply (swept_not_gate s P n). }
  assert (Hrepr : alike s n r -> forall m x, <[n := r]> (sw_repr w) !! m = Some x -> x <= m /\ alike s m x).
  { intros Ha m x. destruct (decide (m = n)) as [->|Hm].
    - rewrite list_lookup_insert by (rewrite (sv_lr _ _ I); lia). intros [= <-]. split; [lia|done].
    - rewrite list_lookup_insert_ne by done. apply I. }
  case_decide as Hs.
  { injection E as <-. assert (Ha : alike s n r).
    { apply (alike_mirrors s (sw_net w) n r f g R Hmf Hmg). rewrite Hs. apply alike_refl. }
    split; cbn [sw_net sw_map sw_repr sw_prover]; try keep I; [by rewrite insert_length; apply I|by apply Hrepr]. }
  destruct (sat_prove ps (sw_net w) solve (sidx g) (sidx f) (sw_prover w)) as [[a pr']|] eqn:Es; [|done]. cbn [mbind option_bind] in E.
  assert (Hh : phist ps solve (size s) (sw_net w) pr').
  { eapply ph_prove; [apply I| | |exact Es]; [apply Hmg|apply Hmf]. }
  destruct a as [model| |].
  - injection E as <-. split; cbn [sw_net sw_map sw_repr sw_prover]; try keep I. done.
  - assert (Ha : alike s n r).
    { apply (alike_mirrors s (sw_net w) n r f g R Hmf Hmg).
      destruct (phase_defined _ (sidx g) R) as [pg Eg']; [apply Hmg|]. destruct (phase_defined _ (sidx f) R) as [pf Ef']; [apply Hmf|].
      exists (xorb pg pf). intros env v V.
      pose proof (C39_unsat_sound ps solve (size s) _ _ (sidx g) (sidx f) _ env v pg pf Ho (sv_hist _ _ I) ltac:(apply Hmg) ltac:(apply Hmf) Es V Eg' Ef') as K.
      destruct (v (sidx g)), (v (sidx f)), pg, pf; done. }
    apply bind_Some in E as (pn & En & E). apply bind_Some in E as (prr & Err & E). injection E as <-.
    split; cbn [sw_net sw_map sw_repr sw_prover]; try keep I; [done|by rewrite insert_length; apply I|by rewrite insert_length; apply I|by apply Hcis| |by apply Hrepr].
    intros m x. destruct (decide (m = n)) as [->|Hm].
    + rewrite list_lookup_insert by (rewrite (sv_lm _ _ I); lia). intros [= <-]. split.
      * eapply (mirrors_sxor s _ r g _ (xorb pn prr)); [done|done|done|]. apply alike_phase; [done|lia|lia|done|done|done].
      * right. right. apply elem_of_app. right. by apply elem_of_list_singleton.
    + rewrite list_lookup_insert_ne by done. apply I.
  - injection E as <-. split; cbn [sw_net sw_map sw_repr sw_prover]; try keep I; [done|by rewrite insert_length; apply I|by apply Hcis|].
    intros m x. destruct (decide (m = n)) as [->|Hm].
    + by rewrite list_lookup_insert by (rewrite (sv_lm _ _ I); lia).
    + rewrite list_lookup_insert_ne by done. apply I.
Qed.

Lemma swinv_more p n w : swinv p w -> swinv (p ++ [n]) w.
Proof using All.
  intros I. split; try keep I.
  - rewrite app_length. pose proof (sv_size _ _ I). cbn [length]. lia.
  - intros m f E. destruct (sv_map _ _ I m f E) as [? [?|[?|?]]]; split; try done; [by left|by right; left|].
    right. right. apply elem_of_app. by left.
Qed.

Lemma sweep_and gs p n q w a b fa fb : gates s = Some gs -> gs = p ++ n :: q -> swinv p w -> ks s !! n = Some (a, b) ->
  sw_map w !! sidx a = Some (Some fa) -> sw_map w !! sidx b = Some (Some fb) ->
  exists f t, create_and (sxor fa (scompl a)) (sxor fb (scompl b)) (sw_net w) = Some (f, t) /\
    sw_map (Sweep t (<[n := Some f]> (sw_map w)) (sw_repr w) (sw_prover w)) !! n = Some (Some f) /\
    swinv (p ++ [n]) (Sweep t (<[n := Some f]> (sw_map w)) (sw_repr w) (sw_prover w)).
Proof using All.
  intros Eg El I Ek Ea Eb. pose proof (phist_reachable _ _ _ (sv_hist _ _ I)) as R.
  assert (Hg : is_gate s n).
  { destruct (gates_spec s (sp_net _ P) (sp_live _ P)) as (gs' & E' & Hd & Hg). rewrite Eg in E'. injection E' as <-.
    apply Hg. rewrite El. apply elem_of_app. right. apply elem_of_list_here. }
  assert (Hns : n < size s) by (by apply lookup_lt_Some in Ek).
  destruct (sv_map _ _ I _ _ Ea) as [Ma _]. destruct (sv_map _ _ I _ _ Eb) as [Mb _].
  pose proof (create_and_rs (sw_net w) (sxor fa (scompl a)) (sxor fb (scompl b)) R (proj1 Ma) (proj1 Mb)) as H.
  apply wp_elim in H as (f & t & E & Hmk & Hsz). exists f, t. split; [done|]. cbn [sw_map].
  rewrite list_lookup_insert by (rewrite (sv_lm _ _ I); lia). split; [done|].
  pose proof (mirrors_and s _ n a b fa fb f t Ma Mb Ek Hg Hmk) as Mn. destruct Hmk as (R' & X & V & _).
  pose proof (gates_count s P gs Eg) as Hc. rewrite El, app_length in Hc. cbn in Hc. pose proof (sv_size _ _ I) as Hsz0.
  split; cbn [sw_net sw_map sw_repr sw_prover].
  - eapply ph_grow; [apply I| |lia]. eapply (later_step _ _ (OpAnd (sxor fa (scompl a)) (sxor fb (scompl b)))); [constructor| |exact E].
    apply Forall_cons. split; [apply Ma|]. apply Forall_cons. split; [apply Mb|constructor].
  - rewrite (ext_ins _ _ X). apply I.
  - rewrite app_length. cbn. lia.
  - rewrite insert_length. apply I.
  - apply I.
  - intros m Hm. rewrite list_lookup_insert_ne; [by apply I|]. intros <-. by apply (swept_not_gate s P n).
  - intros m x. destruct (decide (m = n)) as [->|Hm].
    + rewrite list_lookup_insert by (rewrite (sv_lm _ _ I); lia). intros [= <-]. split; [done|]. right. right.
      apply elem_of_app. right. by apply elem_of_list_singleton.
    + rewrite list_lookup_insert_ne by done. intros E'. destruct (sv_map _ _ I m x E') as [M Hin]. split; [by eapply mirrors_ext|].
      destruct Hin as [?|[?|?]]; [by left|by right; left|]. right. right. apply elem_of_app. by left.
  - apply I.
Qed.

Lemma sweep_gate_inv gs p n q w w' : gates s = Some gs -> gs = p ++ n :: q -> swinv p w ->
  sweep_gate ps solve sim s n w = Some w' -> swinv (p ++ [n]) w'.
Proof using All.
  intros Eg El I E. unfold sweep_gate in E. apply bind_Some in E as ([a b] & Ek & E). cbn [fst snd] in E.
  apply bind_Some in E as (oa & Ea & E). apply bind_Some in E as (ob & Eb & E).
  destruct oa as [fa|]; [|injection E as <-; by apply swinv_more]. destruct ob as [fb|]; [|injection E as <-; by apply swinv_more].
  destruct (sweep_and gs p n q w a b fa fb Eg El I Ek Ea Eb) as (f & t & Ec & Em & I').
  rewrite Ec in E. cbn [mbind option_bind] in E. by eapply sweep_node_inv.
Qed.

Theorem man_sweep_sound nb rp : 0 < nb -> man_sweep ps solve sim s nb = Some rp -> sound_reprs s rp.
Proof using All.
  intros Hb E. unfold man_sweep in E. apply bind_Some in E as (p0 & Ep & E).
  destruct (sweep_cis nb p0 Hb Ep) as (w0 & E0 & I0). rewrite E0 in E. cbn [mbind option_bind] in E.
  apply bind_Some in E as (gs & Eg & E). apply bind_Some in E as (w & Ew & E). injection E as <-.
  assert (I : swinv gs w).
  { eapply (each_inv _ swinv); [exact I0| |exact Ew]. intros p a q x y El Ix Ey. by eapply sweep_gate_inv. }
  split; [apply I|apply I].
Qed.

Lemma sweep_gate_total gs p n q w : gates s = Some gs -> gs = p ++ n :: q -> swinv p w -> size s < init_vars ps ->
  (forall k, sim k < size s) -> is_Some (sweep_gate ps solve sim s n w).
Proof using All.
  intros Eg El I Hv Hsim. unfold sweep_gate.
  assert (Hg : is_gate s n).
  { destruct (gates_spec s (sp_net _ P) (sp_live _ P)) as (gs' & E' & Hd & Hg). rewrite Eg in E'. injection E' as <-.
    apply Hg. rewrite El. apply elem_of_app. right. apply elem_of_list_here. }
  pose proof Hg as (a & b & Ek & H0 & Hab). rewrite Ek. cbn [mbind option_bind fst snd].
  pose proof (lookup_lt_Some _ _ _ Ek) as Hns. fold (size s) in Hns.
  destruct (gate_fanins s P n a b Ek Hg) as [La Lb].
  destruct (lookup_lt_is_Some_2 (sw_map w) (sidx a)) as [oa Ea]; [rewrite (sv_lm _ _ I); lia|].
  destruct (lookup_lt_is_Some_2 (sw_map w) (sidx b)) as [ob Eb]; [rewrite (sv_lm _ _ I); lia|].
  rewrite Ea, Eb. cbn [mbind option_bind]. destruct oa as [fa|]; [|done]. destruct ob as [fb|]; [|done].
  destruct (sweep_and gs p n q w a b fa fb Eg El I Ek Ea Eb) as (f & t & Ec & Em & I').
  rewrite Ec. cbn [mbind option_bind]. set (w' := Sweep _ _ _ _) in *. unfold sweep_node. case_decide as Hr; [done|]. set (r := sim n) in *.
  destruct (lookup_lt_is_Some_2 (sw_map w') r) as [o Er]; [rewrite (sv_lm _ _ I'); apply Hsim|]. rewrite Er. cbn [mbind option_bind].
  destruct o as [g|]; [|done]. case_decide as Hs; [done|].
  destruct (sv_map _ _ I' r g Er) as [Mg _]. destruct (sv_map _ _ I' n f Em) as [Mf _].
  destruct (C39_defined ps solve (size s) _ _ (sidx g) (sidx f) Ho (sv_hist _ _ I') Hs ltac:(apply Mg) ltac:(apply Mf)) as [[x pr] Es].
  { pose proof (sv_size _ _ I'). pose proof (gates_count s P gs Eg) as Hc. rewrite El, app_length in Hc. rewrite app_length in *. cbn in *. lia. }
  rewrite Es. cbn [mbind option_bind]. destruct x; [done| |done].
  destruct (net_valuation s (fun _ => false) (sp_net _ P)) as [v0 V0].
  rewrite (sp_phase _ P n v0 Hns V0). rewrite (sp_phase _ P r v0 (Hsim n) V0). done.
Qed.

Theorem man_sweep_total nb : 0 < nb -> size s < init_vars ps -> (forall k, sim k < size s) -> is_Some (man_sweep ps solve sim s nb).
Proof using All.
  intros Hb Hv Hsim. unfold man_sweep. pose proof (net_size _ (sp_net _ P)) as Hsz.
  assert (Hp : exists p0, prover_init (size s) = Some p0). { unfold prover_init. destruct (size s); [lia|]. by eexists. }
  destruct Hp as [p0 Ep]. rewrite Ep. cbn [mbind option_bind].
  destruct (sweep_cis nb p0 Hb Ep) as (w0 & E0 & I0). rewrite E0. cbn [mbind option_bind].
  destruct (gates_spec s (sp_net _ P) (sp_live _ P)) as (gs & Eg & _ & _). rewrite Eg. cbn [mbind option_bind].
  destruct (each_total (sweep_gate ps solve sim s) swinv gs w0 I0) as (w & E & _); [|by rewrite E].
  intros p a q x El Ix. destruct (sweep_gate_total gs p a q x Eg El Ix Hv Hsim) as [y Ey]. exists y. split; [done|]. by eapply sweep_gate_inv.
Qed.
End sweep.
