From stdpp Require Import sorting.
From Verif Require Import Base Aig AigSem AigHash AigProofs AigApi NetProofs Cnf CnfProofs Choice ChoiceSat ChoiceSatProofs PropChoiceSat
  ChoiceCompute ChoiceComputeProofs ChoiceClasses ChoiceClassesProofs ChoiceRefineProofs ChoiceSimProofs ChoiceResimProofs.

(* ---- sweeping with classes is sweeping with some candidates ---- *)
Lemma sweep_node_sim ps solve sim sim' s n new w : sim n = sim' n -> sweep_node ps solve sim s n new w = sweep_node ps solve sim' s n new w.
Proof. intros E. unfold sweep_node. by rewrite E. Qed.
Lemma sweep_gate_sim ps solve sim sim' s n w : sim n = sim' n -> sweep_gate ps solve sim s n w = sweep_gate ps solve sim' s n w.
Proof.
  intros E. unfold sweep_gate. destruct (ks s !! n) as [k|]; [|done]. cbn [mbind option_bind]. destruct (sw_map w !! sidx k.1) as [[fa|]|]; [|by destruct (sw_map w !! sidx k.2)|done].
  cbn [mbind option_bind]. destruct (sw_map w !! sidx k.2) as [[fb|]|]; [|done|done]. cbn [mbind option_bind].
  destruct (create_and _ _ _) as [[f t]|]; [|done]. cbn [mbind option_bind]. by apply sweep_node_sim.
Qed.
Lemma each_ext {S A} (f g : A -> S -> option S) l x : (forall a y, a ∈ l -> f a y = g a y) -> each f l x = each g l x.
Proof.
  revert x. induction l as [|a l IH]; intros x H; [done|]. cbn [each]. rewrite (H a x) by apply elem_of_list_here.
  destruct (g a x) as [y|]; [|done]. cbn [mbind option_bind]. apply IH. intros b z Hb. apply H. by apply elem_of_list_further.
Qed.

Section refinement.
Context (rnd : nat -> N) (both : bool) (ps : sparams) (solve : oracle) (s : aig).

Lemma csweep_node_sim gs n new x x' : csweep_node rnd both ps solve s gs n new x = Some x' ->
  exists r, sweep_node ps solve (fun _ => r) s n new (cs_sweep x) = Some (cs_sweep x').
Proof.
  destruct x as [w c mb j]. unfold csweep_node. intros E. apply bind_Some in E as (r & _ & E). exists r. unfold sweep_node. cbn [cs_sweep].
  case_decide as Hr; [by injection E as <-|]. destruct (sw_map w !! r) as [[f|]|]; [|by injection E as <-|done]. cbn [mbind option_bind] in *.
  case_decide as Hs; [by injection E as <-|]. destruct (sat_prove _ _ _ _ _ _) as [[a p]|]; [|done]. cbn [mbind option_bind] in *.
  destruct a as [m| |].
  - apply bind_Some in E as ([[c' mb'] j'] & _ & E). by injection E as <-.
  - destruct (ph s !! n) as [pn|]; [|done]. cbn [mbind option_bind] in *. destruct (ph s !! r) as [pr|]; [|done]. cbn [mbind option_bind] in *. by injection E as <-.
  - by injection E as <-.
Qed.
Lemma csweep_gate_sim gs n x x' : csweep_gate rnd both ps solve s gs n x = Some x' ->
  exists r, sweep_gate ps solve (fun _ => r) s n (cs_sweep x) = Some (cs_sweep x').
Proof.
  destruct x as [w c mb j]. unfold csweep_gate, sweep_gate. cbn [cs_sweep]. intros E. destruct (ks s !! n) as [k|]; [|done]. cbn [mbind option_bind] in *.
  destruct (sw_map w !! sidx k.1) as [oa|]; [|done]. cbn [mbind option_bind] in *. destruct (sw_map w !! sidx k.2) as [ob|]; [|done]. cbn [mbind option_bind] in *.
  destruct oa as [fa|]; [|exists 0; by injection E as <-]. destruct ob as [fb|]; [|exists 0; by injection E as <-].
  destruct (create_and _ _ _) as [[f t]|]; [|done]. cbn [mbind option_bind] in *. by apply csweep_node_sim in E.
Qed.
Lemma csweep_gates_sim gs l x x' : NoDup l -> each (csweep_gate rnd both ps solve s gs) l x = Some x' ->
  exists sim, each (sweep_gate ps solve sim s) l (cs_sweep x) = Some (cs_sweep x').
Proof.
  revert x. induction l as [|n l IH]; intros x Hd E; cbn [each] in E.
  - injection E as ->. by exists (fun _ => 0).
  - apply NoDup_cons in Hd as [Hn Hd]. apply bind_Some in E as (y & E1 & E2). apply csweep_gate_sim in E1 as [r E1].
    destruct (IH y Hd E2) as [sim E3]. exists (fun m => if decide (m = n) then r else sim m). cbn [each].
    rewrite (sweep_gate_sim _ _ _ (fun _ => r)) by (by rewrite decide_True). rewrite E1. cbn [mbind option_bind].
    rewrite <- E3. apply each_ext. intros a z Ha. apply sweep_gate_sim. rewrite decide_False; [done|]. by intros ->.
Qed.
Lemma cman_sweep_sim nw nb rp : swept s -> cman_sweep rnd both ps solve s nw nb = Some rp -> exists sim, man_sweep ps solve sim s nb = Some rp.
Proof.
  intros P E. unfold cman_sweep in E. apply bind_Some in E as ([c j] & _ & E). unfold man_sweep.
  apply bind_Some in E as (p & Ep & E). apply bind_Some in E as (w & Ew & E). apply bind_Some in E as (gs & Eg & E). apply bind_Some in E as (x & Ex & E).
  injection E as <-. destruct (gates_spec s (sp_net _ P) (sp_live _ P)) as (gs' & E' & Hd & _). rewrite Eg in E'. injection E' as <-.
  destruct (csweep_gates_sim gs gs _ x Hd Ex) as [sim Es]. cbn [cs_sweep] in Es. exists sim. rewrite Ep. cbn [mbind option_bind]. rewrite Ew. cbn [mbind option_bind].
  rewrite Eg. cbn [mbind option_bind]. by rewrite Es.
Qed.
End refinement.

(* ---- sweeping with classes goes through ---- *)
Lemma success_model ps solve s sz repr n p m p' : pinv ps s sz [] p -> repr < size s -> n < size s ->
  sat_prove ps s solve repr n p = Some (Success m, p') -> exists k cls lits, solve k cls lits = Success m.
Proof.
  intros I Hrs Hns H. assert (Hne : repr <> n). { intros ->. unfold sat_prove in H. by rewrite decide_True in H. }
  pose proof (pi_reach _ _ _ _ _ I) as Hr.
  destruct (prove_prepare ps solve s sz repr n p I Hne Hrs Hns) as (p2 & E & _). rewrite E in H. clear E I p.
  unfold prove_tail in H. unfold bnd at 1 in H. cbn [get] in H.
  destruct (phase_defined s repr Hr Hrs) as [pr Epr]. destruct (phase_defined s n Hr Hns) as [pn Epn].
  rewrite Epr, Epn in H. unfold bnd at 1 in H. cbn [lift] in H. unfold bnd at 1 in H. cbn [lift] in H.
  destruct (node_lit ps s repr true p2) as [a|]; [|done]. unfold bnd at 1 in H. cbn [lift] in H.
  destruct (node_lit ps s n (xorb pr pn) p2) as [b|]; [|done]. unfold bnd at 1 in H. cbn [lift] in H.
  unfold bnd at 1 in H. unfold query at 1 in H. destruct (forallb _ _); [|done].
  destruct (solve (sq p2) (scls p2) [a; b]) as [m1| |] eqn:E1.
  - injection H as <- <-. by eauto.
  - unfold bnd at 1 in H. cbn [add_cls] in H. destruct (decide (repr = 0)); [done|].
    destruct (node_lit ps s repr false p2) as [a'|]; [|done]. unfold bnd at 1 in H. cbn [lift] in H.
    destruct (node_lit ps s n (Bool.eqb pr pn) p2) as [b'|]; [|done]. unfold bnd at 1 in H. cbn [lift] in H.
    unfold bnd at 1 in H. unfold query at 1 in H. destruct (forallb _ _); [|done].
    match type of H with context [solve ?k ?c ?l] => destruct (solve k c l) as [m2| |] eqn:E2 end.
    + injection H as <- <-. by eauto.
    + unfold bnd in H. cbn [add_cls] in H. done.
    + done.
  - done.
Qed.

Section total.
Context (rnd : nat -> N) (both : bool) (ps : sparams) (solve : oracle) (s : aig) (P : swept s) (Ho : correct_oracle solve) (Hfm : full_models ps solve)
  (Hsz : size s < init_vars ps).

Record csinv (p : list nat) (x : csweep) : Prop := {
  cv_sweep : swinv ps solve s p (cs_sweep x);
  cv_grouped : grouped (size s) (cs_cls x);
  cv_len : length (cs_mark x) = size s;
  cv_zero : cs_mark x !! 0 = Some false;
  cv_together : both = true -> together s (cs_cls x);
  cv_first : both = true -> first_reprs s (sw_repr (cs_sweep x))
}.

Lemma together_first c n r m : grouped (size s) c -> together s c -> n < size s -> c_reprs c !! n = Some r -> m < size s -> alike s n m -> r <= m.
Proof using. intros G T Hn E Hm Ha. rewrite (T n m Hn Hm Ha) in E. by apply (gr_repr _ _ G) in E as [? _]. Qed.

Lemma csweep_node_total gs p n q f x : gates s = Some gs -> gs = p ++ n :: q -> csinv (p ++ [n]) x ->
  sw_map (cs_sweep x) !! n = Some (Some f) -> exists x', csweep_node rnd both ps solve s gs n (sidx f) x = Some x' /\ csinv (p ++ [n]) x'.
Proof using All.
  intros Eg El I Ef. destruct x as [w c mb j]. destruct I as [I G Hl H0 T F]. cbn [cs_sweep cs_cls cs_mark] in *.
  assert (Hg : is_gate s n). { apply (gate_of s P gs Eg c G). rewrite El. apply elem_of_app. right. apply elem_of_list_here. }
  assert (Hns : n < size s) by (apply lookup_lt_Some in Ef; rewrite (sv_lm _ _ _ _ _ I) in Ef; lia).
  assert (Hn0 : n <> 0) by (by destruct Hg as (? & ? & ? & ? & _)).
  destruct (lookup_lt_is_Some_2 (c_reprs c) n) as [r Er]; [by rewrite (gr_len _ _ G)|].
  assert (Hinv : forall w', sweep_node ps solve (fun _ => r) s n (sidx f) w = Some w' -> swinv ps solve s (p ++ [n]) w').
  { intros w' E. eapply (sweep_node_inv ps solve (fun _ => r) s P Ho gs p n q f w w'); eauto. }
  unfold sweep_node in Hinv. unfold csweep_node. rewrite Er. cbn [mbind option_bind].
  case_decide as Hr; [exists (CSweep w c mb j); split; [done|by split]|].
  assert (Hrs : r < size s). { apply (gr_repr _ _ G) in Er as [_ H]. apply lookup_lt_Some in H. by rewrite (gr_len _ _ G) in H. }
  destruct (lookup_lt_is_Some_2 (sw_map w) r) as [o Eo]; [by rewrite (sv_lm _ _ _ _ _ I)|]. rewrite Eo in *. cbn [mbind option_bind] in *.
  destruct o as [g|]; [|exists (CSweep w c mb j); split; [done|by split]].
  assert (Hfirst : both = true -> first_reprs s (<[n := r]> (sw_repr w))).
  { intros Hb m x E. destruct (decide (m = n)) as [->|Hm].
    - rewrite list_lookup_insert in E by (rewrite (sv_lr _ _ _ _ _ I); done). injection E as <-. right. intros m Hm Ha.
      by eapply (together_first c n r m); [|apply T| | | |].
    - rewrite list_lookup_insert_ne in E by done. by apply (F Hb). }
  case_decide as Hs.
  { eexists. split; [reflexivity|]. split; cbn [cs_sweep cs_cls cs_mark sw_repr]; try done. by apply Hinv. }
  destruct (sv_map _ _ _ _ _ I r g Eo) as [Mg _]. destruct (sv_map _ _ _ _ _ I n f Ef) as [Mf _].
  pose proof (gates_count s P gs Eg) as Hc. rewrite El, app_length in Hc. pose proof (sv_size _ _ _ _ _ I) as Hsw. rewrite app_length in Hsw. cbn [length] in Hc, Hsw.
  destruct (C39_defined ps solve (size s) _ _ (sidx g) (sidx f) Ho (sv_hist _ _ _ _ _ I) Hs ltac:(apply Mg) ltac:(apply Mf)) as [[a pr] Es]; [lia|].
  rewrite Es in *. cbn [mbind option_bind] in *.
  destruct (swept_ph s P n Hns) as [pn En]. destruct (swept_ph s P r Hrs) as [prr Err].
  destruct a as [m| |].
  - (* a counterexample *)
    assert (Hh : phist ps solve (size s) (sw_net w) pr) by (eapply ph_prove; [apply I| | |exact Es]; [apply Mg|apply Mf]).
    pose proof (phist_inv ps solve (size s) _ pr Ho Hh) as Ip.
    pose proof (phist_reachable ps solve Ho _ _ _ (sv_hist _ _ _ _ _ I)) as R.
    assert (Hm : init_vars ps <= length m).
    { destruct (success_model ps solve (sw_net w) (size s) (sidx g) (sidx f) (sw_prover w) m pr) as (k & cls & lits & E);
        [apply (phist_inv ps solve _ _ _ Ho (sv_hist _ _ _ _ _ I))|apply Mg|apply Mf|exact Es|]. by eapply Hfm. }
    assert (Hget : forall i, i < size s -> is_Some (get_var_value pr m i)).
    { intros i Hi. unfold get_var_value. destruct (lookup_lt_is_Some_2 (smap pr) i) as [x Ex]; [by rewrite (pi_len _ _ _ _ _ Ip)|]. rewrite Ex. cbn [mbind option_bind].
      case_decide; [by eexists|]. apply lookup_lt_is_Some_2. pose proof (pi_lt _ _ _ _ _ Ip i x Ex). pose proof (pinv_svar _ _ _ _ _ Ip). lia. }
    set (env := fun k => default false (get_var_value pr m (S k))). destruct (net_valuation s env (sp_net _ P)) as [v V].
    assert (Hval : forall k, S k ∈ ins s -> (o ← sw_map w !! S k; g ← o; get_var_value pr m (sidx g)) = Some (env k)).
    { intros k Hk. rewrite (sv_cis _ _ _ _ _ I _ Hk). cbn [mbind option_bind sidx]. unfold env.
      destruct (Hget (S k)) as [b Eb]; [|by rewrite Eb]. pose proof (net_ins_valid _ (sp_net _ P)) as Hv. rewrite Forall_forall in Hv. by apply Hv. }
    destruct (phase_defined _ (sidx g) R) as [pg Eg']; [apply Mg|]. destruct (phase_defined _ (sidx f) R) as [pf Ef']; [apply Mf|].
    pose proof (reachable_wf _ R) as W.
    assert (Hd : xorb (ev (sw_net w) env (sidx g)) pg <> xorb (ev (sw_net w) env (sidx f)) pf).
    { eapply (C39_sat_counterexample ps solve (size s) (sw_net w) (sw_prover w) (sidx g) (sidx f) m pr env); [done|apply I|apply Mg|apply Mf|exact Es| |by apply ev_valuation|done|done].
      intros k i b Hk Eb. rewrite (sv_ins _ _ _ _ _ I) in Hk. apply lookup_seq in Hk as [-> _]. unfold env. cbn [Nat.add] in Eb. by rewrite Eb. }
    assert (Hph : forall y h py ph', y < size s -> mirrors s (sw_net w) y h -> ph s !! y = Some py -> ph (sw_net w) !! sidx h = Some ph' ->
      xorb (v y) py = xorb (ev (sw_net w) env (sidx h)) ph').
    { intros y h py ph' Hy [_ Mh] Ey Eh. rewrite <- (Mh env v V). destruct (net_valuation s (fun _ => false) (sp_net _ P)) as [v0 V0].
      rewrite (sp_phase _ P y v0 Hy V0) in Ey. injection Ey as <-. rewrite <- (Mh _ _ V0).
      rewrite (phase_exact _ (sidx h) ph' _ R Eh (ev_valuation _ _ W)). unfold sval. set (a := ev _ env _). set (b := ev _ _ _). by destruct a, b, (scompl h). }
    destruct (resimulate_spec rnd both s P gs (fun i => o ← sw_map w !! i; g ← o; get_var_value pr m (sidx g)) c mb j r n v env pn prr) as (c' & mb' & j' & E & G' & L' & Z' & T'); try done.
    { rewrite (Hph n f pn pf Hns Mf En Ef'), (Hph r g prr pg Hrs Mg Err Eg'). congruence. }
    rewrite E. cbn [mbind option_bind]. eexists. split; [reflexivity|]. split; cbn [cs_sweep cs_cls cs_mark sw_repr]; try done; [by apply Hinv|].
    intros Hb. apply (T' Hb), (T Hb).
  - rewrite En, Err in *. cbn [mbind option_bind] in *. eexists. split; [reflexivity|]. split; cbn [cs_sweep cs_cls cs_mark sw_repr]; try done. by apply Hinv.
  - eexists. split; [reflexivity|]. split; cbn [cs_sweep cs_cls cs_mark sw_repr]; try done. by apply Hinv.
Qed.

Lemma csweep_gate_total gs p n q x : gates s = Some gs -> gs = p ++ n :: q -> csinv p x ->
  exists x', csweep_gate rnd both ps solve s gs n x = Some x' /\ csinv (p ++ [n]) x'.
Proof using All.
  intros Eg El I. pose proof (cv_sweep _ _ I) as Iw.
  assert (Hg : is_gate s n). { apply (gate_of s P gs Eg (cs_cls x) (cv_grouped _ _ I)). rewrite El. apply elem_of_app. right. apply elem_of_list_here. }
  pose proof Hg as (a & b & Ek & H0 & Hab). pose proof (lookup_lt_Some _ _ _ Ek) as Hns. fold (size s) in Hns.
  destruct (gate_fanins s P n a b Ek Hg) as [La Lb].
  destruct (lookup_lt_is_Some_2 (sw_map (cs_sweep x)) (sidx a)) as [oa Ea]; [rewrite (sv_lm _ _ _ _ _ Iw); lia|].
  destruct (lookup_lt_is_Some_2 (sw_map (cs_sweep x)) (sidx b)) as [ob Eb]; [rewrite (sv_lm _ _ _ _ _ Iw); lia|].
  destruct x as [w c mb j]. cbn [cs_sweep] in *. unfold csweep_gate. rewrite Ek. cbn [mbind option_bind fst snd]. rewrite Ea, Eb. cbn [mbind option_bind].
  assert (Hmore : csinv (p ++ [n]) (CSweep w c mb j)).
  { destruct I. split; cbn [cs_sweep cs_cls cs_mark] in *; try done. by apply (swinv_more ps solve (fun _ => 0) s P Ho). }
  destruct oa as [fa|]; [|by eexists]. destruct ob as [fb|]; [|by eexists].
  destruct (sweep_and ps solve (fun _ => 0) s P Ho gs p n q w a b fa fb Eg El Iw Ek Ea Eb) as (f & t & Ec & Em & I').
  rewrite Ec. cbn [mbind option_bind]. apply (csweep_node_total gs p n q f _ Eg El); [|done].
  destruct Hmore. split; cbn [cs_sweep cs_cls cs_mark sw_repr] in *; done.
Qed.

Theorem cman_sweep_total nw nb : living s -> 0 < nw -> 0 < nb -> exists rp, cman_sweep rnd both ps solve s nw nb = Some rp /\ sound_reprs s rp /\ (both = true -> first_reprs s rp).
Proof using All.
  intros Hl Hw Hb. unfold cman_sweep. destruct (compute_equiv_classes_spec rnd nw s P Hl Hw) as (c & j & -> & G & T & _). cbn [mbind option_bind].
  pose proof (net_size _ (sp_net _ P)) as Hsz0.
  assert (Hp : exists p0, prover_init (size s) = Some p0). { unfold prover_init. destruct (size s); [lia|]. by eexists. }
  destruct Hp as [p0 Ep]. rewrite Ep. cbn [mbind option_bind].
  destruct (sweep_cis ps solve (fun _ => 0) s P Ho nb p0 Hb Ep) as (w0 & E0 & I0). rewrite E0. cbn [mbind option_bind].
  destruct (gates_spec s (sp_net _ P) (sp_live _ P)) as (gs & Eg & _ & _). rewrite Eg. cbn [mbind option_bind].
  destruct (each_total (csweep_gate rnd both ps solve s gs) csinv gs (CSweep w0 c (repeat false (size s)) j)) as (x & E & I).
  - split; cbn [cs_sweep cs_cls cs_mark]; try done.
    + apply repeat_length.
    + destruct (size s); [lia|]. done.
    + intros _ n r E. left. assert (sw_repr w0 = seq 0 (size s)) as K.
      { clear -E0. revert E0. generalize (Sweep (aig_init_n nb) (new_map (size s)) (seq 0 (size s)) p0) (eq_refl : sw_repr (Sweep (aig_init_n nb) (new_map (size s)) (seq 0 (size s)) p0) = seq 0 (size s)).
        generalize (ins s). intros l. induction l as [|a l IH]; intros w Hw E; cbn [each] in E; [by injection E as <-|].
        apply bind_Some in E as (w1 & E1 & E). apply (IH w1); [|done]. unfold sweep_ci in E1. destruct (create_pi _) as [[f t]|]; [|done]. cbn [mbind option_bind] in E1.
        destruct (sw_map w !! a); [|done]. cbn [mbind option_bind] in E1. by injection E1 as <-. }
      rewrite K in E. by apply lookup_seq in E as [-> _].
  - intros p a q y El Iy. by apply (csweep_gate_total gs p a q).
  - rewrite E. cbn [mbind option_bind]. eexists. split; [reflexivity|]. split.
    + split; [apply (sv_lr _ _ _ _ _ (cv_sweep _ _ I))|apply (sv_repr _ _ _ _ _ (cv_sweep _ _ I))].
    + apply I.
Qed.
End total.
