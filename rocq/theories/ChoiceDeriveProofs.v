From Verif Require Import Base Aig AigSem AigHash AigProofs AigApi AigReach NetProofs Clean Cnf CnfProofs ConvertProofs Choice ChoiceProofs
  ChoiceSat NodeRewritingProofs ChoiceCompute ChoiceComputeProofs.

(* ---- the number of entries set ---- *)
Definition cnt (m : nmap) : nat := length (filter (fun o => is_Some o) m).
Lemma cnt_insert (m : nmap) n f : m !! n = Some None -> cnt (<[n := Some f]> m) = S (cnt m).
Proof.
  intros E. pose proof (lookup_lt_Some _ _ _ E) as Hn. unfold cnt.
  rewrite <- (take_drop_middle m n None E) at 2. rewrite insert_take_drop by done.
  rewrite !filter_app, !app_length. rewrite filter_cons_True by done. rewrite filter_cons_False by (by intros [? ?]). cbn [length]. lia.
Qed.
Lemma cnt_le (m : nmap) : cnt m <= length m.
Proof. apply filter_length. Qed.
Lemma cnt_lt (m : nmap) n : m !! n = Some None -> cnt m < length m.
Proof. intros E. pose proof (cnt_insert m n (get_constant false) E) as H. pose proof (cnt_le (<[n := Some (get_constant false)]> m)) as H'. rewrite insert_length in H'. lia. Qed.
Lemma cnt_new sz : 0 < sz -> cnt (new_map sz) = 1.
Proof.
  intros H. unfold new_map. rewrite cnt_insert by (destruct sz; [lia|done]). f_equal. unfold cnt.
  induction sz as [|sz IH]; [lia|]. cbn. destruct sz; [done|]. apply IH. lia.
Qed.

(* ---- the inputs of the new network ---- *)
Lemma copy_cis l sz nb : 0 < nb -> l = seq 1 (length l) -> length l < sz ->
  exists c m, each copy_ci l (cnet_of (aig_init_n nb) sz, new_map sz) = Some (c, m) /\
    chist c /\ ins (cb c) = seq 1 (length l) /\ npi (cb c) = length l /\ outs (cb c) = [] /\ npo (cb c) = 0 /\
    size (cb c) = S (length l) /\ equivs c = init_equivs sz /\ reprs c = init_reprs sz /\ length m = sz /\ cnt m = S (length l) /\
    forall n o, m !! n = Some o -> (n = 0 /\ o = Some (get_constant false)) \/ (n ∈ l /\ o = Some (Sig n false)) \/
      (n <> 0 /\ n ∉ l /\ o = None).
Proof.
  intros Hb Hl Hs.
  destruct (each_total copy_ci (fun p d => let '(c, m) := d in chist c /\ ins (cb c) = seq 1 (length p) /\ npi (cb c) = length p /\
      outs (cb c) = [] /\ npo (cb c) = 0 /\
    size (cb c) = S (length p) /\ equivs c = init_equivs sz /\ reprs c = init_reprs sz /\ length m = sz /\ cnt m = S (length p) /\
    forall n o, m !! n = Some o -> (n = 0 /\ o = Some (get_constant false)) \/ (n ∈ p /\ o = Some (Sig n false)) \/
      (n <> 0 /\ n ∉ p /\ o = None)) l (cnet_of (aig_init_n nb) sz, new_map sz)) as ([c m] & E & H).
  - split; [apply ch_init; by constructor|]. do 7 (split; [done|]). split; [apply new_map_length|]. split; [apply cnt_new; lia|].
    intros n o E. apply new_map_lookup in E as [?|[? ?]]; [by left|]. right. right. split; [done|]. split; [apply not_elem_of_nil|done].
  - intros p a q [c m] El (H & Hi & Hn & Ho & Hno & Hsz & He & Hr & Hlm & Hct & Hm). unfold copy_ci, base_op. cbn [fst snd].
    pose proof (ci_reach _ (chist_cinv c H)) as R.
    pose proof (create_pi_r (cb c) R) as K. apply wp_elim in K as (f & t & E & R' & Hf & Hk & Hi' & Ho' & Hn' & Hno' & _).
    rewrite E. cbn [mbind option_bind].
    assert (Ea : l !! length p = Some a). { rewrite El. by rewrite lookup_app_r, Nat.sub_diag by lia. }
    assert (Ha : a = S (length p)). { rewrite Hl in Ea. apply lookup_seq in Ea. lia. }
    assert (Hlt : a < sz). { apply lookup_lt_Some in Ea. lia. }
    destruct (lookup_lt_is_Some_2 m a) as [o Eo]; [lia|]. rewrite Eo. cbn [mbind option_bind].
    assert (o = None) as ->.
    { destruct (Hm a o Eo) as [[? _]|[[Hin _]|(_ & _ & ?)]]; [lia| |done]. exfalso.
      assert (Hd : NoDup l) by (rewrite Hl; apply NoDup_seq). rewrite El in Hd. apply NoDup_app in Hd as (_ & Hd & _).
      by apply (Hd a); [|apply elem_of_list_here]. }
    eexists. split; [done|]. cbn [cb equivs reprs]. rewrite app_length. cbn [length]. split.
    { eapply (ch_step c OpPi); [done|constructor|]. unfold base_op, step. by rewrite E. }
    split. { rewrite Hi', Hi, Hsz, seq_app. done. }
    split; [rewrite Hn'; lia|]. split; [by rewrite Ho'|]. split; [by rewrite Hno'|].
    split. { unfold size in *. rewrite Hk, app_length. cbn. lia. }
    split; [done|]. split; [done|]. split; [by rewrite insert_length|]. split; [rewrite cnt_insert by done; lia|].
    intros n g. destruct (decide (n = a)) as [->|Hna].
    + rewrite list_lookup_insert by lia. intros [= <-]. right. left. split; [|done]. apply elem_of_app. right. by apply elem_of_list_singleton.
    + rewrite list_lookup_insert_ne by done. intros En. destruct (Hm n g En) as [?|[[? ?]|(? & ? & ?)]]; [by left| |].
      * right. left. split; [|done]. apply elem_of_app. by left.
      * right. right. split; [done|]. split; [|done]. rewrite elem_of_app, elem_of_list_singleton. by intros [?|?].
  - by exists c, m.
Qed.

(* ---- representatives ---- *)
Definition repr_alike (c : cnet) : Prop :=
  forall n r, reprs c !! n = Some r -> r = n \/ (n < size (cb c) /\ alike (cb c) n r).

Lemma get_repr_signal_ok c f : chist c -> repr_alike c -> size (cb c) <= length (reprs c) -> valid (cb c) f ->
  exists g, get_repr_signal c f = Some g /\ valid (cb c) g /\ sidx g <= sidx f /\ reprs c !! sidx f = Some (sidx g) /\
    (forall env, sval (ev (cb c) env) g = sval (ev (cb c) env) f) /\ (sidx g = sidx f -> g = f).
Proof.
  intros H Ha Hl Hv. pose proof (chist_cinv c H) as Ci. pose proof (ci_reach _ Ci) as R. unfold get_repr_signal, get_repr.
  unfold valid in *. destruct (lookup_lt_is_Some_2 (reprs c) (sidx f)) as [r Er]; [lia|]. rewrite Er. cbn [mbind option_bind].
  pose proof (ci_repr _ Ci _ _ Er) as Hr.
  destruct (phase_defined (cb c) r R) as [pr Epr]; [lia|]. destruct (phase_defined (cb c) (sidx f) R) as [pf Epf]; [lia|].
  rewrite Epr, Epf. cbn [mbind option_bind]. eexists. split; [done|]. cbn [sidx scompl]. split; [lia|]. split; [done|]. split; [done|]. split.
  - intros env. unfold sval. cbn [sidx scompl].
    assert (K : alike (cb c) (sidx f) r) by (destruct (Ha _ _ Er) as [->|[_ ?]]; [apply alike_refl|done]).
    rewrite (reach_phase _ _ _ _ _ R Epf Epr K env). set (x := ev (cb c) env r). by destruct x, pr, pf, (scompl f).
  - intros ->. rewrite Epf in Epr. injection Epr as ->. rewrite xorb_nilpotent, xorb_false_l. by destruct f.
Qed.

Lemma repr_loop_ok c : chist c -> repr_alike c -> size (cb c) <= length (reprs c) -> forall fuel f, valid (cb c) f -> sidx f < fuel ->
  exists g, repr_loop fuel c f = Some g /\ valid (cb c) g /\ reprs c !! sidx g = Some (sidx g) /\
    (forall env, sval (ev (cb c) env) g = sval (ev (cb c) env) f).
Proof.
  intros H Ha Hl. induction fuel as [|fuel IH]; intros f Hv Hf; [lia|]. cbn [repr_loop].
  destruct (get_repr_signal_ok c f H Ha Hl Hv) as (g & E & Vg & Hle & Er & Hs & Hf'). rewrite E. cbn [mbind option_bind].
  case_decide as Q.
  - subst g. exists f. done.
  - assert (sidx g <> sidx f) by (intros ?; by apply Q, Hf'). destruct (IH g Vg ltac:(lia)) as (h & Eh & Vh & Rh & Hh).
    exists h. split; [done|]. split; [done|]. split; [done|]. intros env. by rewrite Hh, Hs.
Qed.

(* ---- the loop over the gates ---- *)
Section derive.
Context (rp : list nat) (s : aig) (P : swept s) (Hrp : sound_reprs s rp).

Record dinv (p : list nat) (c : cnet) (m : nmap) : Prop := {
  dv_hist : chist c;
  dv_ins : ins (cb c) = seq 1 (length (ins s));
  dv_npi : npi (cb c) = length (ins s);
  dv_outs : outs (cb c) = [];
  dv_npo : npo (cb c) = 0;
  dv_size : size (cb c) <= 1 + length (ins s) + length p;
  dv_le : length (equivs c) = size s;
  dv_lm : length m = size s;
  dv_map : forall n f, m !! n = Some (Some f) -> mirrors s (cb c) n f;
  dv_dom : forall n, (exists f, m !! n = Some (Some f)) <-> n = 0 \/ n ∈ ins s \/ n ∈ p;
  dv_reprs : repr_alike c;
  dv_links : forall n r, link c n r -> alike (cb c) n r;
  dv_first : first_reprs s rp -> forall y b, link c y b -> reprs c !! y = Some y ->
    exists r f, m !! r = Some (Some f) /\ sidx f = y /\ forall x, x < size s -> alike s r x -> r <= x
}.

Ltac dkeep I := first [exact (dv_hist _ _ _ I)|exact (dv_ins _ _ _ I)|exact (dv_npi _ _ _ I)|exact (dv_outs _ _ _ I)|exact (dv_npo _ _ _ I)|exact (dv_size _ _ _ I)|exact (dv_le _ _ _ I)|exact (dv_lm _ _ _ I)|exact (dv_map _ _ _ I)|exact (dv_dom _ _ _ I)|exact (dv_reprs _ _ _ I)|exact (dv_links _ _ _ I)|exact (dv_first _ _ _ I)].

Lemma derive_start nb : 0 < nb -> exists c m, each copy_ci (ins s) (cnet_of (aig_init_n nb) (size s), new_map (size s)) = Some (c, m) /\ dinv [] c m.
Proof using All.
  intros Hb. destruct (copy_cis (ins s) (size s) nb Hb (sp_ins _ P) (swept_ins_size s P)) as
    (c & m & E & H & Hi & Hn & Ho & Hno & Hsz & He & Hr & Hlm & _ & Hm). exists c, m. split; [done|].
  pose proof (ci_reach _ (chist_cinv c H)) as R.
  assert (Hnl : forall a b, ~ link c a b).
  { intros a b L. unfold link in L. rewrite He in L. apply elem_of_list_lookup_2 in L. unfold init_equivs in L. by apply elem_of_list_In, repeat_spec in L. }
  split; try done.
  - cbn. lia.
  - rewrite He. unfold init_equivs. by rewrite repeat_length.
  - intros n f E'. destruct (Hm _ _ E') as [[-> [= ->]]|[[Hin [= ->]]|(_ & _ & ?)]]; [by apply mirrors_const|by apply mirrors_in|done].
  - intros n. split.
    + intros [f E']. destruct (Hm _ _ E') as [[-> _]|[[? _]|(_ & _ & ?)]]; [by left|by right; left|done].
    + intros Hn'. assert (Hlt : n < size s).
      { destruct Hn' as [->|[Hin|Hin]]; [pose proof (swept_ins_size s P); lia| |by apply elem_of_nil in Hin].
        pose proof (net_ins_valid _ (sp_net _ P)) as Hv. rewrite Forall_forall in Hv. by apply Hv. }
      destruct (lookup_lt_is_Some_2 m n) as [o E']; [lia|]. destruct (Hm _ _ E') as [[_ ->]|[[_ ->]|(H0 & Hin & _)]]; [by eexists..|].
      destruct Hn' as [?|[?|Hx]]; [done|done|by apply elem_of_nil in Hx].
  - intros n r E'. left. rewrite Hr in E'. unfold init_reprs in E'. by apply lookup_seq in E' as [-> _].
  - intros n r L. by apply Hnl in L.
  - intros _ y b L. by apply Hnl in L.
Qed.

Lemma derive_gate_spec gs p n q c m : gates s = Some gs -> gs = p ++ n :: q -> dinv p c m ->
  match derive_gate rp s n (c, m) with
  | Some (c', m') => dinv (p ++ [n]) c' m'
  | None => ~ first_reprs s rp
  end.
Proof using All.
  intros Eg El I.
  assert (Hg : is_gate s n).
  { destruct (gates_spec s (sp_net _ P) (sp_live _ P)) as (gs' & E' & Hd & Hg). rewrite Eg in E'. injection E' as <-.
    apply Hg. rewrite El. apply elem_of_app. right. apply elem_of_list_here. }
  assert (Hnp : n ∉ p).
  { intros Hin. pose proof (gates_earlier s P gs p n q n Eg El Hin). lia. }
  pose proof Hg as (ka & kb & Ek & Hn0 & Hkab). pose proof (lookup_lt_Some _ _ _ Ek) as Hns. fold (size s) in Hns.
  destruct Hrp as [Hlr Hsr]. destruct (lookup_lt_is_Some_2 rp n) as [r Er]; [lia|]. destruct (Hsr n r Er) as [Hrn Har].
  unfold derive_gate. rewrite Er. cbn [mbind option_bind].
  assert (Hrs : r < size s) by lia.
  destruct (lookup_lt_is_Some_2 (ks s) r Hrs) as [[ra rb] Ekr]. unfold is_ci at 1. rewrite Ekr. cbn [mbind option_bind fst snd].
  assert (Hmn : m !! n = Some None).
  { destruct (lookup_lt_is_Some_2 m n) as [o Eo]; [rewrite (dv_lm _ _ _ I); lia|]. destruct o as [f|]; [|done]. exfalso.
    destruct (proj1 (dv_dom _ _ _ I n) (ex_intro _ f Eo)) as [?|[Hin|?]]; [done| |done]. by apply (swept_not_gate s P n). }
  assert (Hdom : forall f k, (exists g, <[n := Some f]> m !! k = Some (Some g)) <-> k = 0 \/ k ∈ ins s \/ k ∈ p ++ [n]).
  { intros f k. rewrite elem_of_app, elem_of_list_singleton. destruct (decide (k = n)) as [->|Hk].
    - rewrite list_lookup_insert by (rewrite (dv_lm _ _ _ I); lia). split; [intros _; by right; right; right|by eexists].
    - rewrite list_lookup_insert_ne by done. rewrite (dv_dom _ _ _ I k). tauto. }
  assert (Hfirst : first_reprs s rp -> r <> n -> forall x, x < size s -> alike s r x -> r <= x).
  { intros F Hne x Hx Hal. destruct (F n r Er) as [?|F']; [done|]. apply F'; [done|]. by eapply alike_trans. }
  assert (Hold : forall k f g, m !! k = Some (Some g) -> <[n := Some f]> m !! k = Some (Some g)).
  { intros k f g E. rewrite list_lookup_insert_ne; [done|]. intros <-. congruence. }
  pose proof (dv_hist _ _ _ I) as H. pose proof (ci_reach _ (chist_cinv c H)) as R.
  destruct (bool_decide_reflect (ra = rb)) as [Hrr|Hrr].
  { (* constant or input *)
    assert (Hrc : r = 0 \/ r ∈ ins s) by (subst rb; by eapply net_ci; [apply P|]).
    destruct (proj2 (dv_dom _ _ _ I r)) as [g Emr]; [destruct Hrc; [by left|by right; left]|]. rewrite Emr. cbn [mbind option_bind].
    destruct (net_valuation s (fun _ => false) (sp_net _ P)) as [v0 V0].
    pose proof (sp_phase _ P n v0 Hns V0) as Epn. pose proof (sp_phase _ P r v0 Hrs V0) as Epr.
    rewrite Epn, Epr. cbn [mbind option_bind]. split; try dkeep I.
    - rewrite app_length. pose proof (dv_size _ _ _ I). cbn [length]. lia.
    - rewrite insert_length. apply I.
    - intros k f. destruct (decide (k = n)) as [->|Hk].
      + rewrite list_lookup_insert by (rewrite (dv_lm _ _ _ I); lia). intros [= <-].
        eapply (mirrors_sxor s _ r g); [by apply (dv_map _ _ _ I)|done|done|]. by apply alike_phase.
      + rewrite list_lookup_insert_ne by done. apply (dv_map _ _ _ I).
    - intros k. by apply Hdom.
    - intros F y b L Hy. destruct (dv_first _ _ _ I F y b L Hy) as (r0 & f0 & E0 & ? & ?). exists r0, f0. split; [by apply Hold|done]. }
  (* an AND node *)
  cbn match. rewrite Ek. cbn [mbind option_bind fst snd].
  destruct (gate_fanins s P n ka kb Ek Hg) as [La Lb].
  assert (Hch : forall x, fanin s n x -> exists f, m !! x = Some (Some f) /\ mirrors s (cb c) x f).
  { intros x Hx. destruct (proj2 (dv_dom _ _ _ I x)) as [f Ef].
    - pose proof (net_gate _ (sp_net _ P) n x Hx) as Hxs. pose proof (sp_order _ P n x Hx) as Hxn.
      destruct (net_cases s x (sp_net _ P) Hxs) as [->|[[k Hk]|(H0 & a & b & E & Hab)]]; [by left| |].
      + right. left. by eapply elem_of_list_lookup_2.
      + right. right. eapply gates_before; [apply P|apply P|exact Eg|exact El| |done]. by exists a, b.
    - exists f. split; [done|]. by apply (dv_map _ _ _ I). }
  destruct (Hch (sidx ka)) as (fa & Ea & Ma); [exists ka, kb; naive_solver|].
  destruct (Hch (sidx kb)) as (fb & Eb & Mb); [exists ka, kb; naive_solver|].
  unfold img. rewrite Ea, Eb. cbn [mbind option_bind].
  pose proof (gates_count s P gs Eg) as Hcnt. rewrite El, app_length in Hcnt. cbn [length] in Hcnt. pose proof (dv_size _ _ _ I) as Hsz.
  assert (Hlreps : length (reprs c) = size s) by (rewrite (ci_len _ (chist_cinv c H)); apply I).
  destruct (get_repr_signal_ok c (sxor fa (scompl ka)) H (dv_reprs _ _ _ I) ltac:(lia) (proj1 Ma)) as (a' & Ea' & Va' & _ & _ & Sa' & _).
  destruct (get_repr_signal_ok c (sxor fb (scompl kb)) H (dv_reprs _ _ _ I) ltac:(lia) (proj1 Mb)) as (b' & Eb' & Vb' & _ & _ & Sb' & _).
  rewrite Ea', Eb'. cbn [mbind option_bind]. unfold base_op at 1.
  pose proof (create_and_rs (cb c) a' b' R Va' Vb') as Hc. apply wp_elim in Hc as (f0 & t & Ec & Hmk & Hszt).
  rewrite Ec. cbn [mbind option_bind].
  assert (Mn : mirrors s t n f0).
  { apply (mirrors_and s (cb c) n ka kb fa fb f0 t Ma Mb Ek Hg). destruct Hmk as (? & ? & ? & Hv). split; [done|]. split; [done|]. split; [done|].
    intros env. by rewrite Hv, Sa', Sb'. }
  destruct Hmk as (Rt & X & Vt & _). set (c1 := Cnet t (equivs c) (reprs c) (cval c) (cvis c) (ctrav c)).
  assert (H1 : chist c1).
  { eapply (ch_step c (OpAnd a' b') f0); [done|apply Forall_cons; split; [done|]; apply Forall_cons; split; [done|constructor]|].
    unfold base_op, step. by rewrite Ec. }
  assert (Hra1 : repr_alike c1).
  { intros k x E'. destruct (dv_reprs _ _ _ I k x E') as [?|[Hk Hkx]]; [by left|]. right. cbn [cb c1]. split.
    - pose proof (ext_size _ _ X). lia.
    - eapply alike_ext; [apply X|apply X|done]. }
  destruct (repr_loop_ok c1 H1 Hra1 ltac:(cbn; lia) (S (length (reprs c1))) f0 Vt ltac:(cbn; unfold valid in Vt; lia)) as (f & Ef & Vf & Rf & Sf).
  rewrite Ef. cbn [mbind option_bind]. rewrite Hmn. cbn [mbind option_bind].
  assert (Mf : mirrors s t n f). { split; [done|]. intros env v V. cbn [cb c1] in Sf. rewrite Sf. by apply Mn. }
  assert (I1 : dinv (p ++ [n]) c1 (<[n := Some f]> m)).
  { split; cbn [cb equivs reprs c1]; try done.
    - rewrite (ext_ins _ _ X). apply I.
    - rewrite (ext_npi _ _ X). apply I.
    - rewrite (ext_outs _ _ X). apply I.
    - rewrite (ext_npo _ _ X). apply I.
    - rewrite app_length. cbn [length]. lia.
    - apply I.
    - rewrite insert_length. apply I.
    - intros k g. destruct (decide (k = n)) as [->|Hk].
      + rewrite list_lookup_insert by (rewrite (dv_lm _ _ _ I); lia). by intros [= <-].
      + rewrite list_lookup_insert_ne by done. intros E'. eapply mirrors_ext; [exact X|]. by apply (dv_map _ _ _ I).
    - intros k x L. eapply alike_ext; [apply X|apply X|]. by apply (dv_links _ _ _ I).
    - intros F y b L Hy. destruct (dv_first _ _ _ I F y b L Hy) as (r0 & g0 & E0 & ? & ?). exists r0, g0. split; [by apply Hold|done]. }
  case_decide as Hrne; [done|]. case_decide as Hle; [lia|].
  destruct (proj2 (dv_dom _ _ _ I1 r)) as [g Emr].
  { right. right. apply elem_of_app. left. eapply gates_before; [apply P|apply P|exact Eg|exact El| |lia].
    exists ra, rb. split; [done|]. split; [|done]. intros ->. pose proof (net_const _ (sp_net _ P)) as K. rewrite Ekr in K. by injection K as -> ->. }
  rewrite Emr. cbn [mbind option_bind].
  case_decide as Hfg; [done|].
  destruct (fanout_size (cb c1) (sidx f)) as [fs|] eqn:Efs.
  2:{ exfalso. unfold fanout_size in Efs. destruct (wf_fo_lookup t (sidx f) (reachable_wf _ Rt) Vf) as [h Hh]. cbn [cb c1] in Efs. rewrite Hh in Efs. done. }
  cbn [mbind option_bind]. case_decide as Hfs; [done|].
  pose proof (chist_cinv _ H1) as Ci1. pose proof (dv_map _ _ _ I1 r g Emr) as Mg. cbn [cb c1] in Mg.
  destruct (set_choice (sidx f) (sidx g) c1) as [[b c2]|] eqn:Esc.
  - cbn [mbind option_bind]. destruct (set_choice_inv _ _ _ _ _ Ci1 Esc) as (Ci2 & Hcb & Hb).
    assert (H2 : chist c2) by (by eapply ch_choice).
    destruct b.
    + destruct Hb as (_ & Hfs2 & _ & Erp & Hflen & _ & tl & Htl & Etl & Eeq).
      pose proof (link_insert c1 tl (sidx f) c2 Etl Eeq) as Hlk.
      assert (Hafg : alike t (sidx f) (sidx g)) by (eapply mirrors_alike; [apply P|done|done|done|done]).
      assert (Hch2 : forall x y, rtc (link c1) x y -> alike t x y).
      { intros x y L. induction L as [x|x y z L1 _ IH]; [apply alike_refl|]. eapply alike_trans; [|done]. apply (dv_links _ _ _ I1 _ _ L1). }
      split; rewrite ?Hcb; try dkeep I1; try done.
      * rewrite Eeq, insert_length. apply I1.
      * intros k x. rewrite Erp, Hcb. destruct (decide (k = sidx f)) as [->|Hk].
        -- rewrite list_lookup_insert by done. intros [= <-]. right. split; [done|]. done.
        -- rewrite list_lookup_insert_ne by done. apply I1.
      * intros k x L. apply Hlk in L as [L|[-> ->]]; [by apply (dv_links _ _ _ I1)|].
        eapply alike_trans; [apply alike_sym, Hch2, Htl|]. by apply alike_sym.
      * intros F y b L Hy. rewrite Erp in Hy.
        assert (Hyf : y <> sidx f). { intros ->. rewrite list_lookup_insert in Hy by done. injection Hy as Hy. lia. }
        rewrite list_lookup_insert_ne in Hy by done.
        apply Hlk in L as [L|[-> ->]]; [by apply (dv_first _ _ _ I1 F y b)|].
        apply rtc_inv_r in Htl as [Etg|(z & _ & Hz)].
        -- exists r, g. split; [done|]. split; [done|]. by apply Hfirst.
        -- exfalso. destruct (ci_head _ Ci1 _ _ Hz) as (r' & Er' & Hlt). rewrite Hy in Er'. injection Er' as <-. lia.
    + destruct Hb as (Eq & Er' & _). split; rewrite ?Hcb, ?Eq, ?Er'; try dkeep I1; try done.
      * intros k x. rewrite Er', Hcb. apply I1.
      * intros k x L. apply (dv_links _ _ _ I1). unfold link in *. by rewrite <- Eq.
      * intros F y b L Hy. apply (dv_first _ _ _ I1 F y b); [unfold link in *; by rewrite <- Eq|done].
  - cbn [mbind option_bind]. intros F. destruct (lookup_lt_is_Some_2 (equivs c1) (sidx f)) as [e Ee].
    { rewrite (dv_le _ _ _ I1). unfold valid in Vf. cbn [cb c1] in Vf. lia. }
    destruct e as [b|].
    + destruct (dv_first _ _ _ I1 F (sidx f) b Ee Rf) as (r0 & g0 & E0 & Eg0 & F0).
      assert (Ha0 : alike s n r0).
      { eapply (alike_mirrors s t); [done|exact Mf|apply (dv_map _ _ _ I1 _ _ E0)|]. rewrite Eg0. apply alike_refl. }
      assert (r = r0) as <-.
      { apply Nat.le_antisymm.
        - apply (Hfirst F ltac:(done)).
          + pose proof (lookup_lt_Some _ _ _ E0) as K. rewrite insert_length, (dv_lm _ _ _ I) in K. done.
          + eapply alike_trans; [by apply alike_sym|done].
        - apply F0; [done|]. eapply alike_trans; [by apply alike_sym|done]. }
      rewrite Emr in E0. injection E0 as <-. lia.
    + destruct (set_choice_total (sidx f) (sidx g) c1 Ci1) as [[? ?] K]; [cbn; rewrite (dv_le _ _ _ I); lia|done|done| |by rewrite Esc in K].
      right. intros x L. destruct (ci_head _ Ci1 _ _ L) as (r' & Er' & Hlt). rewrite Rf in Er'. injection Er' as <-. lia.
Qed.

(* ---- the outputs ---- *)
(* g computes in t what f does in s *)
Definition renders (s t : aig) (f g : signal) : Prop :=
  valid t g /\ forall env v, valuation s env v -> sval (ev t env) g = sval v f.

Record derived (t : cnet) : Prop := {
  dr_hist : chist t;
  dr_ins : ins (cb t) = seq 1 (length (ins s));
  dr_npi : npi (cb t) = length (ins s);
  dr_npo : npo (cb t) = length (outs (cb t));
  dr_outs : Forall2 (renders s (cb t)) (outs s) (outs (cb t));
  dr_len : size (cb t) <= length (equivs t);
  dr_links : forall n r, link t n r -> alike (cb t) n r
}.

Theorem derive_spec nb : 0 < nb ->
  match derive rp s nb with Some t => derived t | None => ~ first_reprs s rp end.
Proof using All.
  intros Hb. unfold derive. destruct (derive_start nb Hb) as (c0 & m0 & E0 & I0). rewrite E0. cbn [mbind option_bind].
  destruct (gates_spec s (sp_net _ P) (sp_live _ P)) as (gs & Eg & _ & Hgs). rewrite Eg. cbn [mbind option_bind].
  pose proof (each_spec (derive_gate rp s) (fun p d => dinv p d.1 d.2) (~ first_reprs s rp) gs (c0, m0) I0) as H.
  destruct (each (derive_gate rp s) gs (c0, m0)) as [[c m]|].
  2:{ cbn [mbind option_bind]. apply H. intros p a q [c m] El I. pose proof (derive_gate_spec gs p a q c m Eg El I) as K.
      by destruct (derive_gate rp s a (c, m)) as [[c' m']|]. }
  cbn [mbind option_bind]. assert (I : dinv gs c m).
  { apply H. intros p a q [c1 m1] El I. pose proof (derive_gate_spec gs p a q c1 m1 Eg El I) as K.
    by destruct (derive_gate rp s a (c1, m1)) as [[c' m']|]. }
  clear H E0 I0 c0 m0.
  destruct (each_total derive_co (fun p d => chist d.1 /\ d.2 = m /\ ks (cb d.1) = ks (cb c) /\ ins (cb d.1) = ins (cb c) /\
     npi (cb d.1) = npi (cb c) /\ npo (cb d.1) = length (outs (cb d.1)) /\ equivs d.1 = equivs c /\ reprs d.1 = reprs c /\
     Forall2 (renders s (cb c)) p (outs (cb d.1))) (outs s) (c, m)) as ([t m'] & E & H & _ & Hk & Hi & Hpi & Hpo & He & Hr & Ho).
  - cbn. split; [apply I|]. do 4 (split; [done|]). split; [by rewrite (dv_npo _ _ _ I), (dv_outs _ _ _ I)|].
    split; [done|]. split; [done|]. rewrite (dv_outs _ _ _ I). constructor.
  - intros p f q [c1 m1] El (H1 & Em & Hk & Hi & Hpi & Hpo & He & Hr & Ho). cbn [fst snd] in *. subst m1. unfold derive_co.
    assert (Hfs : sidx f < size s).
    { pose proof (net_out _ (sp_net _ P)) as Hv. rewrite Forall_forall in Hv. apply Hv. rewrite El. apply elem_of_app. right. apply elem_of_list_here. }
    destruct (proj2 (dv_dom _ _ _ I (sidx f))) as [g Eg'].
    { destruct (net_cases s (sidx f) (sp_net _ P) Hfs) as [->|[[k Hk']|(Hn0 & a & b & E & Hab)]]; [by left| |].
      - right. left. by eapply elem_of_list_lookup_2.
      - right. right. apply Hgs. by exists a, b. }
    unfold img. rewrite Eg'. cbn [mbind option_bind]. destruct (dv_map _ _ _ I _ _ Eg') as [Vg Hg].
    assert (Hsz : size (cb c1) = size (cb c)) by (unfold size; by rewrite Hk).
    assert (Hra : repr_alike c1).
    { intros k r. rewrite Hr. intros E. destruct (dv_reprs _ _ _ I k r E) as [?|[? ?]]; [by left|]. right. split; [lia|].
      eapply alike_ext; [exists []; by rewrite app_nil_r|done|done]. }
    assert (Hlen : size (cb c1) <= length (reprs c1)).
    { rewrite (ci_len _ (chist_cinv _ H1)), He, (dv_le _ _ _ I). rewrite Hsz. pose proof (dv_size _ _ _ I). pose proof (gates_count s P gs Eg). lia. }
    destruct (get_repr_signal_ok c1 (sxor g (scompl f)) H1 Hra Hlen) as (h & Eh & Vh & _ & _ & Sh & _).
    { unfold valid in *. cbn. lia. }
    rewrite Eh. cbn [mbind option_bind]. unfold base_op.
    pose proof (create_po_r (cb c1) h (ci_reach _ (chist_cinv _ H1)) Vh) as K.
    apply wp_elim in K as (r & t & Et & Rt & Kk & Ki & Ko & Kpi & Kpo & _). rewrite Et. cbn [mbind option_bind].
    eexists. split; [done|]. cbn [fst snd cb equivs reprs]. split.
    { eapply (ch_step c1 (OpPo h) h); [done|apply Forall_cons; split; [done|constructor]|]. unfold base_op, step, bnd, ret. by rewrite Et. }
    split; [done|]. split; [by rewrite Kk|]. split; [by rewrite Ki|]. split; [by rewrite Kpi|].
    split; [rewrite Kpo, Ko, app_length; cbn; lia|]. split; [done|]. split; [done|]. rewrite Ko. apply Forall2_app; [done|].
    constructor; [|constructor]. split; [unfold valid, size in *; lia|]. intros env v V.
    assert (Hev : forall x, ev (cb c1) env x = ev (cb c) env x) by (intros; by apply ev_same).
    specialize (Sh env). unfold sval in *. rewrite !Hev in Sh. rewrite Sh. cbn. rewrite <- (Hg env v V). by rewrite xorb_assoc.
  - rewrite E. cbn [mbind option_bind fst]. cbn [fst snd] in *. split.
    + done.
    + rewrite Hi. apply I.
    + rewrite Hpi. apply I.
    + done.
    + eapply Forall2_impl; [exact Ho|]. intros f g [Vg Hg]. split; [unfold valid, size in *; by rewrite Hk|]. intros env v V.
      rewrite <- (Hg env v V). unfold sval. by rewrite (ev_same (cb c)).
    + rewrite He, (dv_le _ _ _ I). assert (Hsz : size (cb t) = size (cb c)) by (unfold size; by rewrite Hk). pose proof (dv_size _ _ _ I). pose proof (gates_count s P gs Eg). lia.
    + intros n r L. eapply alike_ext; [exists []; by rewrite app_nil_r|done|]. apply (dv_links _ _ _ I). unfold link in *. by rewrite <- He.
Qed.
End derive.
