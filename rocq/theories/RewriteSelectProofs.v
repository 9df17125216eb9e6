(* Lemmas about the selection phase of rewriting. *)
From Coq Require Import Sorted.
From Verif Require Import Base Aig AigSem AigProofs AigApi AigReach Topo TopoProofs Clean CleanProofs NetProofs Tt TtProofs TtCache Cut CutEnum CutEnumProofs
  Cnf Sim SimProofs Subst RefDeref RefDerefProofs Rewrite NodeRewriting NodeRewritingProofs RewriteSelect PropCutEnum PropRefDeref PropNodeRewriting.
Local Open Scope nat_scope.

(* ---- the recursions end ---- *)
Lemma foldM_total {S A B} (f : B -> A -> M S B) l : (forall a b s, a ∈ l -> is_Some (f b a s)) ->
  forall b s, exists b' s', foldM f b l s = Some (b', s').
Proof.
  induction l as [|a l IH]; intros H b s; [by exists b, s|]. rewrite foldM_cons.
  destruct (H a b s ltac:(left)) as [[b1 s1] ->]. apply IH. intros a' b' s' Ha. apply H. by right.
Qed.

Section total.
Context (s : aig) (Hnet : network s) (rank : nat -> nat) (Hrank : forall n m, fanin s n m -> rank m < rank n).

Lemma fan_total n : n < size s -> exists l, aig_fan s n = Some l /\ forall c, c ∈ l -> c < size s /\ rank c < rank n.
Proof.
  intros Hn. destruct (fan_of s Hnet n Hn) as (l & E & Hl). exists l. split; [done|]. intros c Hc. apply Hl in Hc.
  split; [by apply (net_gate s Hnet) in Hc|by apply Hrank].
Qed.
Lemma key_total c : c < size s -> exists k, ks s !! c = Some k.
Proof. apply lookup_lt_is_Some_2. Qed.

Lemma deref_walk_total stop : (forall n, n < size s -> is_Some (stop n)) ->
  forall fuel n v, n < size s -> rank n < fuel -> exists r v', deref s stop fuel n v = Some (r, v').
Proof.
  intros Hstop. induction fuel as [|fuel IH]; intros n v Hn Hf; [lia|]. cbn [deref]. destruct (Hstop n Hn) as [b ->]. cbn [mbind option_bind].
  destruct b; [by eexists _, _|]. destruct (fan_total n Hn) as (l & -> & Hl). cbn [mbind option_bind]. apply foldM_total.
  intros c res w Hc. destruct (Hl c Hc) as [H1 H2]. destruct (key_total c H1) as [k ->]. cbn [mbind option_bind].
  case_decide; [|done]. destruct (IH c (setv w c (u32 (w c + (2 ^ 32 - 1)))) H1 ltac:(lia)) as (r & v' & ->). done.
Qed.
Lemma ref_walk_total stop : (forall n, n < size s -> is_Some (stop n)) ->
  forall fuel n v, n < size s -> rank n < fuel -> exists r v', ref s stop fuel n v = Some (r, v').
Proof.
  intros Hstop. induction fuel as [|fuel IH]; intros n v Hn Hf; [lia|]. cbn [ref]. destruct (Hstop n Hn) as [b ->]. cbn [mbind option_bind].
  destruct b; [by eexists _, _|]. destruct (fan_total n Hn) as (l & -> & Hl). cbn [mbind option_bind]. apply foldM_total.
  intros c res w Hc. destruct (Hl c Hc) as [H1 H2]. destruct (key_total c H1) as [k ->]. cbn [mbind option_bind].
  case_decide; [|done]. destruct (IH c (setv w c (u32 (w c + 1))) H1 ltac:(lia)) as (r & v' & ->). done.
Qed.
Lemma update_walk_total leaves : forall fuel n a, n < size s -> rank n < fuel -> exists r a', update_arrive s leaves fuel n a = Some (r, a').
Proof.
  induction fuel as [|fuel IH]; intros n a Hn Hf; [lia|]. cbn [update_arrive].
  destruct (fan_total n Hn) as (l & -> & Hl). cbn [mbind option_bind]. apply foldM_total.
  intros c res w Hc. destruct (Hl c Hc) as [H1 H2]. case_decide; [done|].
  destruct (IH c w H1 ltac:(lia)) as (r1 & a1 & ->). cbn [mbind option_bind].
  destruct (IH c a1 H1 ltac:(lia)) as (r2 & a2 & ->). done.
Qed.
Lemma require_walk_total : forall fuel n r, n < size s -> rank n < fuel -> exists r', require_rec s fuel n r = Some (Datatypes.tt, r').
Proof.
  induction fuel as [|fuel IH]; intros n r Hn Hf; [lia|]. cbn [require_rec].
  rewrite (term_total s n Hn). cbn [mbind option_bind]. destruct (term_b s n); [by exists r|].
  destruct (fan_total n Hn) as (l & -> & Hl). cbn [mbind option_bind].
  destruct (foldM_total (fun (_ : unit) c (r : depths) => if (r n - 1 <? r c)%Z then require_rec s fuel c (setv r c (r n - 1)%Z) else Some (Datatypes.tt, r)) l) with (b := Datatypes.tt) (s := r)
    as ([] & r' & E); [|by exists r'].
  intros c res w Hc. destruct (Hl c Hc) as [H1 H2]. destruct (w n - 1 <? w c)%Z; [|done].
  destruct (IH c (setv w c (w n - 1)%Z) H1 ltac:(lia)) as (r' & ->). done.
Qed.
End total.

Lemma deref_cut_total s n leaves v : network s -> n < size s -> exists r v', deref_cut s n leaves v = Some (r, v').
Proof.
  intros W Hn. destruct (net_rank s W) as (rank & Hr & Hb). pose proof (Hb n).
  apply (deref_walk_total s W rank Hr); [|done|lia]. intros m _. done.
Qed.
Lemma ref_cut_total s n leaves v : network s -> n < size s -> exists r v', ref_cut s n leaves v = Some (r, v').
Proof.
  intros W Hn. destruct (net_rank s W) as (rank & Hr & Hb). pose proof (Hb n).
  apply (ref_walk_total s W rank Hr); [|done|lia]. intros m _. done.
Qed.
Lemma update_arrive_total s n leaves a : network s -> n < size s -> exists r a', update_arrive s leaves (S (size s)) n a = Some (r, a').
Proof.
  intros W Hn. destruct (net_rank s W) as (rank & Hr & Hb). pose proof (Hb n). apply (update_walk_total s W rank Hr); [done|lia].
Qed.
Lemma dead_total s n : network s -> n < size s -> exists b, is_dead s n = Some b.
Proof. intros W Hn. unfold is_dead. destruct (lookup_lt_is_Some_2 (fo s) n) as [h ->]; [by rewrite (net_fo _ W)|]. by eexists. Qed.
Lemma fanout_total s n : network s -> n < size s -> exists b, fanout_size s n = Some b.
Proof. intros W Hn. unfold fanout_size. destruct (lookup_lt_is_Some_2 (fo s) n) as [h ->]; [by rewrite (net_fo _ W)|]. by eexists. Qed.
Lemma initialize_depth_total s : network s -> exists a r, initialize_depth s = Some (a, r).
Proof.
  intros W. unfold initialize_depth. destruct (net_rank s W) as (rank & Hr & Hb).
  destruct (opt_fold_inv (arrive_node s) (fun _ _ => True) (seq 0 (size s)) (fun _ => 0%Z)) as (a & -> & _); [|done|].
  - intros pre n rest a E _. assert (Hn : n < size s).
    { assert (Hi : n ∈ seq 0 (size s)) by (rewrite E; apply elem_of_app; right; left). apply elem_of_seq in Hi. lia. }
    unfold arrive_node. destruct (dead_total s n W Hn) as [b ->]. cbn [mbind option_bind]. destruct b; [by eexists|].
    assert (exists p, (if decide (n = 0) then Some false else is_pi s n) = Some p) as [p ->].
    { case_decide; [by eexists|]. unfold is_pi. destruct (key_total s n Hn) as [k ->]. by eexists. }
    cbn [mbind option_bind]. destruct p; [by eexists|]. destruct (fan_total s W rank Hr n Hn) as (l & -> & _). by eexists.
  - cbn [mbind option_bind].
    match goal with |- context [foldM ?f Datatypes.tt (pos s) ?r0] => destruct (foldM_total f (pos s)) with (b := Datatypes.tt) (s := r0) as (u & r & ->) end.
    + intros f ? r Hf. assert (Hv : sidx f < size s).
      { pose proof (net_out _ W) as Ho. rewrite Forall_forall in Ho. apply Ho. by apply take_elem in Hf. }
      pose proof (Hb (sidx f)).
      destruct (require_walk_total s W rank Hr (S (size s)) (sidx f) (setv r (sidx f) (foldl (fun m po => Z.max m (a (sidx po))) 0%Z (pos s))) Hv ltac:(lia)) as (r' & ->).
      done.
    + by eexists _, _.
Qed.

(* ---- in a grown network ---- *)
Lemma deref_weaken stop s s' : network s -> (exists t, ks s' = ks s ++ t) ->
  forall f f' n v r, f <= f' -> n < size s -> deref s stop f n v = Some r -> deref s' stop f' n v = Some r.
Proof.
  intros Hnet Hp. induction f as [|f IH]; intros f' n v r Hf Hn E; [done|]. destruct f' as [|f']; [lia|].
  cbn [deref] in E |- *. destruct (stop n) as [[]|]; cbn [mbind option_bind] in E |- *; [done| |done].
  rewrite (fan_prefix s s' n Hp Hn). destruct (fan_of s Hnet n Hn) as (l & Hl & Hlf). rewrite Hl in E |- *. cbn [mbind option_bind] in E |- *.
  assert (Hc : forall c, c ∈ l -> c < size s) by (intros c Hc; apply Hlf in Hc; by apply (net_gate s Hnet) in Hc).
  clear Hl Hlf. revert E. generalize 1 as acc. revert v. induction l as [|c l IHl]; intros v acc E; [done|].
  rewrite foldM_cons in E. rewrite foldM_cons.
  destruct (lookup_lt_is_Some_2 (ks s) c ltac:(apply Hc; left)) as [k Hk]. destruct Hp as [t Ht].
  rewrite Hk in E. rewrite Ht, (lookup_app_l_Some _ _ _ _ Hk). cbn [mbind option_bind] in E |- *.
  case_decide.
  - destruct (deref s stop f c _) as [[r1 v2]|] eqn:E2; cbn [mbind option_bind] in E; [|done].
    rewrite (IH f' c _ _ ltac:(lia) ltac:(apply Hc; left) E2). cbn [mbind option_bind].
    rewrite <- Ht. apply IHl; [|done]. intros c' Hc'. apply Hc. by right.
  - rewrite <- Ht. apply IHl; [|done]. intros c' Hc'. apply Hc. by right.
Qed.
Lemma deref_cut_grown s s' n leaves v r : network s -> ext s s' -> n < size s ->
  deref_cut s n leaves v = Some r -> deref_cut s' n leaves v = Some r.
Proof.
  intros W X Hn E. eapply deref_weaken; [exact W|apply X| |done|exact E]. pose proof (ext_size _ _ X). lia.
Qed.

(* what referencing visits *)
Lemma ref_spec s n leaves v : network s -> moderate s -> n < size s -> (forall y, (v y < 2 ^ 31)%N) ->
  exists A v', ref_cut s n leaves v = Some (length A, v') /\ addc s leaves (fun y => v y <> 0%N) n A.
Proof.
  intros W Hm%moderate_Z Hn Hv. destruct (net_rank s W) as (rank & Hrank & Hrb). pose proof (Hrb n).
  assert (Hstop : forall m, m < size s -> at_leaves leaves m = Some (leaf_b leaves m)) by done.
  destruct (zwalk_spec s (leaf_b leaves) W (at_leaves leaves) rank Hstop Hrank (S (size s)) n (fun y => 1 - Z.of_N (v y))%Z Hn) as (V' & A & EA & Hd & HV & Hre & Hr & Hin);
    [lia|].
  assert (Hkb : forall y, (krefs s A y <= 2 * size s)).
  { intros y. apply krefs_bound; [done|]. intros x Hx. apply (rtc_size s W n); [done|by apply Hre]. }
  destruct (sim_ref s (at_leaves leaves) (S (size s)) n (fun y => 1 - Z.of_N (v y))%Z v (length A) V') as (v' & Ev & _).
  - intros y. pose proof (Hv y). cbn beta. replace (1 - (1 - Z.of_N (v y)))%Z with (Z.of_N (v y)) by lia. rewrite Z.mod_small; lia.
  - done.
  - intros y. lia.
  - intros y. rewrite HV. pose proof (Hkb y). pose proof (Hv y). lia.
  - exists A, v'. split; [exact Ev|]. split; [done| |].
    + unfold leaf_b in Hr. case_bool_decide as Hl; [subst A; split; [by intros ?%elem_of_nil|done]|done].
    + intros y Hy. rewrite (Hin y Hy), HV. unfold leaf_b. rewrite bool_decide_eq_false.
      assert (Hk : krefs s A y <> 0 <-> exists p, p ∈ A /\ fanin s p y).
      { unfold krefs. split.
        - intros Hne. destruct (decide (Exists (fun x => edges s y x <> 0) A)) as [Hx|Hx].
          + apply Exists_exists in Hx as (x & Hx & He). exists x. split; [done|]. by apply edges_fanin.
          + destruct Hne. apply sum_list_zero. intros x Hx'. destruct (edges s y x) eqn:Ee; [done|]. destruct Hx. apply Exists_exists. exists x. split; [done|lia].
        - intros (p & Hp & Hf) H0. rewrite sum_list_zero in H0. apply edges_fanin in Hf. by apply Hf, H0. }
      rewrite <- Hk. split.
      * intros (? & ? & ? & ?). split; [done|]. split; lia.
      * intros (? & H0 & H1). split; [done|]. assert (v y = 0%N) by (destruct (decide (v y = 0%N)); tauto). split; [lia|]. split; [lia|].
        apply Hk in H1 as (p & _ & Hf). by apply (net_gate s W) in Hf.
Qed.
Lemma addc_iff s leaves (P Q : nat -> Prop) n A : (forall y, P y <-> Q y) -> addc s leaves P n A -> addc s leaves Q n A.
Proof. intros H [H1 H2 H3]. split; [done|done|]. intros y Hy. by rewrite (H3 y Hy), (H y). Qed.
Lemma addc_grown s s' leaves P n A : network s -> network s' -> ext s s' -> n < size s -> addc s leaves P n A -> addc s' leaves P n A.
Proof.
  intros W W' X Hn [H1 H2 H3]. split; [done|done|]. intros y Hy. rewrite (H3 y Hy).
  assert (Hlt : forall p, p ∈ A -> p < size s).
  { intros p Hp. destruct (decide (p = n)) as [->|Hpn]; [done|]. apply (H3 p Hpn) in Hp as (_ & _ & q & _ & Hf). by apply (net_gate s W) in Hf. }
  assert (Hf : forall p, p ∈ A -> (fanin s p y <-> fanin s' p y)).
  { intros p Hp%Hlt. unfold fanin. destruct (ext_ks _ _ X) as [t Ht]. destruct (lookup_lt_is_Some_2 (ks s) p Hp) as [k Hk].
    rewrite Ht, (lookup_app_l_Some _ _ _ _ Hk), Hk. done. }
  split; intros (Ha & Hb & p & Hp & Hpf); (split; [done|]); (split; [done|]); exists p; (split; [done|]); by apply (Hf p).
Qed.

(* values of the nodes after the cone of a cut has been dereferenced *)
Lemma freed s n leaves v : network s -> moderate s -> n < size s -> n ∉ leaves ->
  (forall y, v y = N.of_nat (references s y)) -> (forall y, (v y < 2 ^ 31)%N) ->
  exists E v', deref_cut s n leaves v = Some (length E, v') /\ ffc s (leaf_b leaves) n E /\
    (forall y, (v' y < 2 ^ 31)%N) /\ forall y, v' y <> 0%N <-> still_used s E y.
Proof.
  intros W Hm Hn Hl Hr Hv.
  destruct (deref_ffc s (leaf_b leaves) W (at_leaves leaves) ltac:(done) n v Hn (moderate_Z s Hm)) as (E & v' & EE & Hf & Hlt & H);
    [by apply bool_decide_eq_false_2|done|intros y; pose proof (Hv y); lia|].
  exists E, v'. split; [exact EE|]. split; [exact Hf|].
  assert (Hv' : forall y, v' y = N.of_nat (references s y - krefs s E y)) by (intros y; apply H).
  split; [intros y; rewrite Hv'; pose proof (Hv y); rewrite Hr in *; lia|].
  intros y. rewrite Hv'. pose proof (inside_le s W E y (ffc_nodup _ _ _ _ Hf) Hlt) as Hi. unfold still_used. split.
  - intros Hne. destruct (decide (Exists (fun f => sidx f = y) (outs s))) as [Ho|Ho].
    { apply Exists_exists in Ho as (f & ? & ?). left. by exists f. }
    right. destruct (decide (Exists (fun p => p ∉ E /\ edges s y p <> 0) (seq 0 (size s)))) as [Hp|Hp].
    { apply Exists_exists in Hp as (p & _ & ? & Hp). exists p. split; [done|]. by apply edges_fanin. }
    exfalso. assert (references s y <= krefs s E y); [|lia]. apply Hi. split.
    + intros p Hp'. destruct (decide (p ∈ E)) as [|Hq]; [done|]. destruct Hp. apply Exists_exists. exists p.
      split; [apply elem_of_seq; pose proof (fanin_lt s p y Hp'); lia|]. split; [done|]. by apply edges_fanin.
    + intros f Hf' Hy. apply Ho, Exists_exists. by exists f.
  - intros Hu H0. assert (Hle : references s y <= krefs s E y) by lia. apply Hi in Hle as [H1 H2].
    destruct Hu as [(f & Hf' & Hy)|(p & Hp & Hf')]; [by apply (H2 f)|]. by apply Hp, H1.
Qed.

(* ---- candidates ---- *)
Section select.
Context (s0 : aig) (R0 : reachable s0) (Hs : (N.of_nat (2 * size s0 + length (outs s0)) < 2 ^ 31)%N).

Lemma references_small y : (N.of_nat (references s0 y) < 2 ^ 31)%N.
Proof using Hs. clear R0. pose proof (references_bound s0 y). lia. Qed.
Lemma reach_net s : reachable s -> network s.
Proof. intros H. by apply wf_network, reachable_wf. Qed.
Lemma moderate_grown s s' : ext s s' -> moderate s' -> moderate s.
Proof. intros X%ext_size. unfold moderate. lia. Qed.
Lemma equivalent_grown s s' n f : reachable s -> reachable s' -> ext s s' -> n < size s -> valid s f ->
  equivalent s n f -> equivalent s' n f.
Proof.
  intros R R' X Hn Vf He env v Hv. pose proof (valuation_unique s' env v (reachable_wf s' R') Hv) as Hu.
  assert (Hold : forall g, valid s g -> sval v g = sval (ev s env) g).
  { intros g Vg. rewrite <- (ext_sval s s' env g X Vg). unfold sval. rewrite (Hu (sidx g)); [done|]. by apply (ext_valid s). }
  rewrite (Hold f Vf). pose proof (Hold (Sig n false) Hn) as H. unfold sval in H. cbn in H. rewrite !xorb_false_r in H. rewrite H.
  apply (He env). apply ev_valuation. by apply reachable_wf.
Qed.

(* f may replace n, with gain g *)
Record chosen (s : aig) (n : nat) (f : signal) (g : Z) : Prop := {
  ch_valid : valid s f;
  ch_equiv : equivalent s n f;
  ch_gain : moderate s -> exists leaves t E A, length leaves = 4 /\ n ∉ leaves /\ cut_function s0 n leaves t /\
    ffc s0 (leaf_b leaves) n E /\ addc s leaves (still_used s0 E) (sidx f) A /\ g = (Z.of_nat (length E) - Z.of_nat (length A))%Z
}.
Lemma chosen_grown s s' n f g : reachable s -> reachable s' -> ext s s' -> n < size s -> chosen s n f g -> chosen s' n f g.
Proof.
  intros R R' X Hn [H1 H2 H3]. split; [by apply (ext_valid s)|by apply (equivalent_grown s)|].
  intros Hm. destruct (H3 (moderate_grown _ _ X Hm)) as (leaves & t & E & A & ? & ? & ? & ? & Ha & ?).
  exists leaves, t, E, A. split_and!; try done. apply (addc_grown s); [by apply reach_net..|done|exact H1|done].
Qed.

Definition best_ok (s : aig) (n : nat) (c : sel) : Prop :=
  (0 <= sgain c)%Z -> exists f, sbest c = Some f /\ forall s2, ext s s2 -> reachable s2 -> chosen s2 n f (sgain c).
Lemma best_ok_grown s s' n c : ext s s' -> best_ok s n c -> best_ok s' n c.
Proof.
  intros X H Hg. destruct (H Hg) as (f & E & Hf). exists f. split; [done|]. intros s2 X2 R2. apply Hf; [by eapply ext_trans|done].
Qed.

Lemma cut_equivalent s n leaves t f : reachable s -> ext s0 s -> n < size s0 -> (forall l, l ∈ leaves -> l < size s0) ->
  cut_function s0 n leaves t -> implements s t (map (fun l => Sig l false) leaves) f -> equivalent s n f.
Proof.
  intros R X Hn Hl [Hnv Hc] [Vf Hf] env v Hv. rewrite (Hf env v Hv).
  pose proof (valuation_unique s env v (reachable_wf s R) Hv) as Hu.
  assert (Hold : forall m, m < size s0 -> v m = ev s0 env m).
  { intros m Hm. pose proof (ext_sval s0 s env (Sig m false) X Hm) as H. unfold sval in H. cbn in H. rewrite !xorb_false_r in H.
    rewrite <- H. apply Hu. pose proof (ext_size _ _ X). lia. }
  rewrite (Hold n Hn), <- (Hc env (ev s0 env)) by (apply ev_valuation; by apply reachable_wf).
  apply eval_ext. intros k Hk. rewrite list_lookup_fmap. destruct (leaves !! k) as [l|] eqn:El; [|done]. cbn. unfold sval. cbn.
  rewrite xorb_false_r. symmetry. apply Hold, Hl. by eapply elem_of_list_lookup_2.
Qed.

Lemma on_signal_ok ps req n leaves t before (v1 : values) s f c : reachable s -> ext s0 s -> n < size s0 -> n ∉ leaves ->
  (forall l, l ∈ leaves -> l < size s0) -> length leaves = 4 -> cut_function s0 n leaves t ->
  implements s t (map (fun l => Sig l false) leaves) f ->
  (moderate s -> exists E, before = length E /\ ffc s0 (leaf_b leaves) n E /\ (forall y, (v1 y < 2 ^ 31)%N) /\ forall y, v1 y <> 0%N <-> still_used s0 E y) ->
  (moderate s -> forall y, svalues c y = v1 y) -> best_ok s n c -> (-1 <= sgain c)%Z ->
  exists c', on_signal ps req n leaves before s f c = Some (true, c') /\
    (moderate s -> forall y, svalues c' y = v1 y) /\ best_ok s n c' /\ (-1 <= sgain c')%Z.
Proof.
  intros R X Hn Hnl Hl H4 Hc Hi Hv1 Hv Hb Hge. pose proof (reach_net s R) as W. pose proof (proj1 Hi) as Vf.
  unfold on_signal. destruct (ref_cut_total s (sidx f) leaves (svalues c) W Vf) as (cost & w1 & E1). rewrite E1. cbn [mbind option_bind].
  destruct (deref_cut_total s (sidx f) leaves w1 W Vf) as (cost' & w2 & E2). rewrite E2. cbn [mbind option_bind].
  destruct (update_arrive_total s (sidx f) leaves (sarrive c) W Vf) as (u & a & ->). cbn [mbind option_bind].
  eexists. split; [reflexivity|].
  assert (Hw2 : moderate s -> forall y, w2 y = v1 y).
  { intros Hm y. destruct (C35_cut_ref_deref s (sidx f) leaves (svalues c) W Hm Vf) as (r & z1 & z2 & F1 & F2 & Hz).
    - intros z. rewrite (Hv Hm z). destruct (Hv1 Hm) as (_ & _ & _ & Hb1 & _). pose proof (Hb1 z). lia.
    - rewrite E1 in F1. injection F1 as <- <-. rewrite E2 in F2. injection F2 as <- <-. rewrite Hz. by apply Hv. }
  destruct ((negb (preserve_depth ps) || (0 <=? req n - a (sidx f))%Z) && (sgain c <? Z.of_nat before - Z.of_nat cost)%Z) eqn:Ec; cbn [svalues sgain sbest].
  2:{ split; [done|]. split; [exact Hb|done]. }
  apply andb_true_iff in Ec as [_ Eg%Z.ltb_lt]. split; [done|]. split; [|lia].
  intros _. cbn [svalues sgain sbest]. exists f. split; [done|]. intros s2 X2 R2.
  apply (chosen_grown s); [done|done|done|pose proof (ext_size _ _ X); lia|].
  split; [done|by eapply cut_equivalent|]. intros Hm. destruct (Hv1 Hm) as (E & -> & Hffc & Hb1 & Hu).
  destruct (ref_spec s (sidx f) leaves (svalues c) W Hm Vf) as (A & v' & EA & HA).
  { intros y. rewrite (Hv Hm y). apply Hb1. }
  rewrite E1 in EA. injection EA as -> _. exists leaves, t, E, A. split_and!; try done.
  eapply addc_iff; [|exact HA]. intros y. cbn beta. rewrite (Hv Hm y). apply Hu.
Qed.

(* ---- cuts ---- *)
Context {D : Type} (lt : cut D -> cut D -> bool) (upd : list (cutset D) -> nat -> cut D -> D) (d0 : D) (cap max : nat) (cps : cut_ps).
Context (Hcomb : length (ins s0) = npi s0) (Hmax : 0 < max) (Hsmall : small max s0).
Context (x : list (cutset D) * cache) (Hx : cut_enumeration true lt upd d0 cap max s0 cps = Some x).
Context (b : nat) (vs : list N) (d : aig * classes) (Hb : 0 < b) (Hlen : (N.of_nat (length vs) < 2 ^ 26)%N) (Hvs : db_valid vs) (Hd : generate_db b vs = Some d).
Context (ps : rw_ps) (req : depths).

Definition tinv (n : nat) (s : aig) (c : sel) : Prop :=
  (moderate s -> forall y, svalues c y = N.of_nat (references s0 y)) /\ best_ok s n c /\ (-1 <= sgain c)%Z.


Lemma try_cut_ok n cs c s r : reachable s -> ext s0 s -> x.1 !! n = Some cs -> c ∈ vis cs -> tinv n s r -> n < size s0 ->
  exists s' r', try_cut d ps req x n (s, r) c = Some (s', r') /\ reachable s' /\ ext s s' /\ tinv n s' r'.
Proof.
  intros R X Hcs Hc (Hv & Hbest & Hge) Hn. unfold try_cut. case_decide as H4; [|exists s, r; split; [done|]; split; [done|]; split; [apply ext_refl|done]].
  destruct (C16_cuts_sound true lt upd d0 cap max s0 cps x n cs c R0 Hcomb Hmax Hsmall Hx Hcs Hc) as (_ & _ & _ & Ht).
  destruct (Ht eq_refl) as (t & Et & Hf). rewrite Et. cbn [mbind option_bind fst snd].
  assert (Hlv : forall l, l ∈ lvs c -> l < n).
  { intros l Hl. destruct (C16_leaves true lt upd d0 cap max s0 cps x n cs c l R0 Hcomb Hmax Hsmall Hx Hcs Hc Hl) as [[?|E] _]; [done|].
    rewrite E in H4. done. }
  assert (Hnl : n ∉ lvs c) by (intros Hin%Hlv; lia).
  assert (Hlt : forall l, l ∈ lvs c -> l < size s0) by (intros l Hl%Hlv; lia).
  pose proof (reach_net s0 R0) as W0. pose proof (reach_net s R) as W. pose proof (ext_size _ _ X) as Hsz.
  destruct (deref_cut_total s n (lvs c) (svalues r) W ltac:(lia)) as (before & v1 & E1). rewrite E1. cbn [mbind option_bind].
  assert (Hfree : moderate s -> exists E, before = length E /\ ffc s0 (leaf_b (lvs c)) n E /\ (forall y, (v1 y < 2 ^ 31)%N) /\ forall y, v1 y <> 0%N <-> still_used s0 E y).
  { intros Hm. destruct (freed s0 n (lvs c) (svalues r) W0 (moderate_grown _ _ X Hm) Hn Hnl (Hv Hm)) as (E & v' & EE & H1 & H2 & H3).
    - intros y. rewrite (Hv Hm y). apply references_small.
    - apply (deref_cut_grown s0 s) in EE; [|done..]. rewrite E1 in EE. injection EE as -> ->. by exists E. }
  set (Inv := fun (s1 : aig) (c1 : sel) => (moderate s1 -> forall y, svalues c1 y = v1 y) /\ best_ok s1 n c1 /\ (-1 <= sgain c1)%Z).
  destruct (C36_structures (on_signal ps req n (lvs c) before) Inv b vs d t (map (fun l => Sig l false) (lvs c)) s
    (Sel v1 (sarrive r) (sgain r) (sbest r))) as (s' & r' & -> & R' & X' & I1 & I2 & I3); try done.
  - destruct Hf as [-> _]. lia.
  - rewrite map_length. lia.
  - apply Forall_forall. intros g Hg. apply elem_of_list_fmap in Hg as (l & -> & Hl). unfold valid. cbn. apply Hlt in Hl. lia.
  - intros s1 s2 c1 X1 (H1 & H2 & H3). split; [intros Hm; apply H1; by eapply moderate_grown|]. split; [by eapply best_ok_grown|done].
  - intros s1 f c1 R1 X1 Hi (H1 & H2 & H3).
    destruct (on_signal_ok ps req n (lvs c) t before v1 s1 f c1) as (c' & E' & K); try done.
    + by eapply ext_trans.
    + intros Hm. apply Hfree. by eapply moderate_grown.
    + by exists true, c'.
  - cbn [mbind option_bind]. pose proof (reach_net s' R') as W'. pose proof (ext_size _ _ X') as Hsz'.
    destruct (ref_cut_total s' n (lvs c) (svalues r') W' ltac:(lia)) as (u & v3 & E3). rewrite E3. cbn [mbind option_bind].
    eexists _, _. split; [reflexivity|]. split; [done|]. split; [done|]. split; [|split; [exact I2|done]].
    intros Hm y. cbn [svalues]. pose proof (moderate_grown _ _ X' Hm) as Hm0.
    destruct (C35_cut_deref_ref s' n (lvs c) (svalues r) W' Hm ltac:(lia)) as (c0 & w1 & w2 & F1 & F2 & Hw).
    { intros z. rewrite (Hv Hm0 z). pose proof (references_small z). lia. }
    apply (deref_cut_grown s s') in E1; [|done|done|lia]. rewrite E1 in F1. injection F1 as <- <-.
    destruct (ref_pw (at_leaves (lvs c)) s' (S (size s')) n v1 (svalues r') _ _ ltac:(intros z; symmetry; by apply I1) F2) as (w' & Ew & Hw').
    unfold ref_cut in E3. rewrite E3 in Ew. injection Ew as _ ->. rewrite <- Hw', Hw. by apply Hv.
Qed.

(* ---- nodes ---- *)
Definition picked (s : aig) (p : nat * signal) : Prop :=
  is_gate s0 p.1 /\ exists g, chosen s p.1 p.2 g /\ ((0 < g)%Z \/ use_zero_gain ps = true /\ g = 0%Z).
Record rinv (k : nat) (s : aig) (v : values) (l : list (nat * signal)) : Prop := {
  r_reach : reachable s;
  r_ext : ext s0 s;
  r_val : moderate s -> forall y, v y = N.of_nat (references s0 y);
  r_picked : Forall (picked s) l;
  r_lt : Forall (fun p => p.1 < k) l;
  r_sorted : StronglySorted (fun p q => p.1 < q.1) l
}.
Lemma picked_grown s s' p : reachable s -> reachable s' -> ext s0 s -> ext s s' -> picked s p -> picked s' p.
Proof.
  intros R R' X0 X [Hg (g & Hc & Hor)]. split; [done|]. exists g. split; [|done]. apply (chosen_grown s); try done.
  destruct Hg as (? & ? & Hk & _). apply lookup_lt_Some in Hk. pose proof (ext_size _ _ X0). unfold size in *. lia.
Qed.
Lemma sorted_snoc {A} (P : A -> A -> Prop) l a : StronglySorted P l -> Forall (fun q => P q a) l -> StronglySorted P (l ++ [a]).
Proof.
  induction 1 as [|q l H IH Hq]; intros Hf; [repeat constructor|]. apply Forall_cons in Hf as [Hf1 Hf2]. cbn. constructor; [by apply IH|].
  apply Forall_app. split; [done|]. by constructor.
Qed.

Lemma select_node_ok n s v a l : rinv n s v l -> 0 < n < size s0 ->
  exists s' v' a' l', select_node d ps req x (s, v, a, l) n = Some (s', v', a', l') /\ rinv (S n) s' v' l'.
Proof.
  intros [R X Hv Hp Hlt Hso] Hn. pose proof (ext_size _ _ X) as Hsz. pose proof (reach_net s R) as W.
  assert (Hlt' : Forall (fun p => p.1 < S n) l) by (eapply Forall_impl; [exact Hlt|]; cbn; lia).
  unfold select_node. destruct (lookup_lt_is_Some_2 (ks s0) n ltac:(unfold size in *; lia)) as [[ka kb] Ek].
  assert (Ek' : ks s !! n = Some (ka, kb)) by (destruct (ext_ks _ _ X) as [u ->]; by apply lookup_app_l_Some).
  unfold is_ci. rewrite Ek'. cbn [mbind option_bind fst snd]. destruct (dead_total s n W ltac:(lia)) as [dd ->]. cbn [mbind option_bind].
  assert (Hsame : exists s' v' a' l', Some (s, v, a, l) = Some (s', v', a', l') /\ rinv (S n) s' v' l') by (exists s, v, a, l; split; [done|]; by split).
  case_bool_decide as Hab; cbn [orb]; [exact Hsame|]. destruct dd; [exact Hsame|].
  destruct (fanout_total s n W ltac:(lia)) as [fs ->]. cbn [mbind option_bind]. destruct (1000 <? fs)%N; [exact Hsame|].
  assert (Hlx : length x.1 = size s0).
  { pose proof (cut_enumeration_spec true lt upd d0 cap max s0 cps (reachable_wf s0 R0) Hmax Hcomb (proj1 Hsmall) (no_dead s0 (reachable_wf s0 R0) (proj2 Hsmall))) as H.
    rewrite Hx in H. apply H. }
  destruct (lookup_lt_is_Some_2 x.1 n ltac:(lia)) as [cs Ecs]. rewrite Ecs. cbn [mbind option_bind].
  destruct (opt_fold_inv (try_cut d ps req x n) (fun _ st => reachable st.1 /\ ext s st.1 /\ tinv n st.1 st.2) (vis cs) (s, Sel v a (-1) None))
    as ([s' r] & -> & R' & X' & Hv' & Hb' & Hge').
  - intros pre c rest [s1 r1] E (R1 & X1 & T1). cbn [fst snd] in R1, X1, T1.
    destruct (try_cut_ok n cs c s1 r1 R1) as (s2 & r2 & -> & R2 & X2 & T2); try done.
    + by eapply ext_trans.
    + rewrite E. apply elem_of_app. right. left.
    + lia.
    + exists (s2, r2). split; [done|]. split; [done|]. split; [by eapply ext_trans|done].
  - split; [done|]. split; [apply ext_refl|]. split; [done|]. split; [|done]. intros Hg. cbn in Hg. lia.
  - cbn [fst snd] in R', X', Hv', Hb'. cbn [mbind option_bind].
    assert (Hp' : Forall (picked s') l) by (eapply Forall_impl; [exact Hp|]; intros p; by apply picked_grown).
    destruct ((0 <? sgain r) || use_zero_gain ps && (sgain r =? 0))%Z eqn:Eg.
    + assert (Hor : (0 < sgain r)%Z \/ use_zero_gain ps = true /\ sgain r = 0%Z).
      { apply orb_true_iff in Eg as [Eg%Z.ltb_lt|[Eg1 Eg2%Z.eqb_eq]%andb_true_iff]; auto. }
      destruct (Hb' ltac:(lia)) as (f & -> & Hf). cbn [mbind option_bind].
      eexists _, _, _, _. split; [reflexivity|]. split; [done|by eapply ext_trans|done| | |].
      * apply Forall_app. split; [done|]. constructor; [|constructor]. split; [exists ka, kb; cbn; split; [done|]; split; [lia|done]|].
        exists (sgain r). split; [|done]. apply Hf; [apply ext_refl|done].
      * apply Forall_app. split; [done|]. constructor; [cbn; lia|constructor].
      * by apply sorted_snoc.
    + eexists _, _, _, _. split; [reflexivity|]. split; [done|by eapply ext_trans|done|done|done|done].
Qed.
End select.

Lemma select_all_ok {D} lt upd (d0 : D) cap max cps b vs d ps s x : reachable s -> length (ins s) = npi s -> 0 < max -> small max s ->
  cut_enumeration true lt upd d0 cap max s cps = Some x ->
  0 < b -> (N.of_nat (length vs) < 2 ^ 26)%N -> db_valid vs -> generate_db b vs = Some d ->
  exists s' v a l, select_all lt upd d0 cap max cps d ps s = Some (s', v, a, l) /\ rinv s ps (size s) s' v l.
Proof.
  intros R Hc Hm Hsm Hx Hb Hl Hvs Hd. unfold select_all. pose proof (reach_net s R) as W. destruct (initialize_depth_total s W) as (a & r & ->).
  cbn [mbind option_bind]. rewrite Hx. cbn [mbind option_bind].
  assert (H0 : 0 < size s) by (destruct (net_size s W); lia).
  destruct (opt_fold_inv (select_node d ps r x) (fun pre (st : state) => let '(s', v, a, l) := st in rinv s ps (S (length pre)) s' v l) (seq 1 (size s - 1)) (s, initialize_reference s, a, []))
    as ([[[s' v] a'] l] & -> & H).
  - intros pre n rest [[[s1 v1] a1] l1] E Hi.
    assert (Hn : n = S (length pre) /\ n < size s).
    { assert (Hk : seq 1 (size s - 1) !! length pre = Some n) by (rewrite E; by apply list_lookup_middle). apply lookup_seq in Hk. lia. }
    destruct Hn as [Hn1 Hn2].
    destruct (select_node_ok s R (proj2 Hsm) lt upd d0 cap max cps Hc Hm Hsm x Hx b vs d Hb Hl Hvs Hd ps r n s1 v1 a1 l1) as (s2 & v2 & a2 & l2 & -> & Hi').
    + by rewrite Hn1.
    + lia.
    + eexists. split; [reflexivity|]. cbn beta iota. rewrite app_length. cbn [length]. replace (S (length pre + 1)) with (S n) by lia. exact Hi'.
  - split; [done|apply ext_refl| |constructor|constructor|constructor].
    intros _ y. unfold initialize_reference, is_dead, fanout_size. destruct (fo s !! y) as [h|] eqn:Eh; cbn [mbind option_bind].
    + rewrite (wf_fo s (reachable_wf s R) y h Eh). pose proof (references_small s (proj2 Hsm) y) as Hr.
      assert (Hu : u32 (N.of_nat (references s y)) = N.of_nat (references s y)).
      { unfold u32. apply N.mod_small. eapply N.lt_trans; [exact Hr|]. reflexivity. }
      rewrite Hu.
      replace (N.testbit (N.of_nat (references s y)) 31) with false.
      * rewrite N.mod_small by exact Hr. done.
      * symmetry. destruct (decide (references s y = 0)) as [->|Hne]; [done|]. apply N.bits_above_log2.
        apply N.log2_lt_pow2; [lia|exact Hr].
    + symmetry. rewrite refs_out_of_range; [done|by apply reachable_wf|]. apply lookup_ge_None in Eh. rewrite (net_fo _ W) in Eh. done.
  - exists s', v, a', l. split; [done|]. rewrite seq_length in H. replace (S (size s - 1)) with (size s) in H by lia. exact H.
Qed.
