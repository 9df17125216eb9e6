(* Proofs about Debugger.v. *)
From Verif Require Import Base Aig AigSem AigHash AigProofs AigApi AigReach Topo TopoProofs Clean NetProofs CleanProofs Depth DepthProofs
  Tt TtProofs TtCache TtCacheProofs Klut KlutSem KlutProofs Isop IsopProofs Cnf CnfProofs Mapping MappingProofs CollapseProofs ConvertProofs PropNet PropCnf Debugger.

(* every mapping has values *)
Fixpoint mval_at (fuel : nat) (s : aig) (m : mview) (env : nat -> bool) (n : nat) : bool :=
  match fuel with
  | O => false
  | S fuel' =>
      if decide (n = 0) then false
      else match list_find (eq n) (ins s) with
      | Some (k, _) => env k
      | None => match cell_fanin m n, cell_function m n with
          | Some l, Some f => tt_eval f (fun i => match l !! i with Some c => mval_at fuel' s m env c | None => false end)
          | _, _ => false
          end
      end
  end.
Lemma gate_not_input s n : network s -> is_gate s n -> n ∉ ins s.
Proof.
  intros W (a & b & Hk & H0 & Hab) [i Hi]%elem_of_list_lookup. destruct (net_in _ W i n Hi) as [_ Hk']. rewrite Hk in Hk'. injection Hk' as -> ->. done.
Qed.
Lemma mval_root fuel s m env n l f : network s -> root s m n -> cell_fanin m n = Some l -> cell_function m n = Some f ->
  mval_at (S fuel) s m env n = tt_eval f (fun i => match l !! i with Some c => mval_at fuel s m env c | None => false end).
Proof.
  intros W [Hg Hr] El Ef. cbn [mval_at]. pose proof Hg as (a & b & _ & H0 & _). rewrite decide_False by done.
  replace (list_find (eq n) (ins s)) with (@None (nat * nat)); [by rewrite El, Ef|]. symmetry. apply list_find_None, Forall_forall. intros y Hy <-. by eapply gate_not_input.
Qed.
Lemma mval_fuel s m env : network s -> shaped s m -> forall n fuel fuel', provided s m n -> n < fuel -> n < fuel' -> mval_at fuel s m env n = mval_at fuel' s m env n.
Proof.
  intros W Hs n. induction (lt_wf n) as [n _ IH]. intros [|fuel] [|fuel'] Hp H1 H2; try lia. destruct Hp as [->|[Hi|Hr]].
  - done.
  - cbn [mval_at]. destruct (decide (n = 0)); [done|]. destruct (list_find (eq n) (ins s)) as [[k ?]|] eqn:E; [done|].
    exfalso. apply list_find_None in E. rewrite Forall_forall in E. by apply (E n Hi).
  - destruct (sh_cell _ _ Hs n Hr) as (l & f & El & Ef & Hwf & Hn & Hc). rewrite !(mval_root _ s m env n l f) by done. apply eval_ext. intros i _.
    destruct (l !! i) as [c|] eqn:Ec; [|done]. destruct (Hc c) as [Hp Hlt]; [by eapply elem_of_list_lookup_2|]. apply IH; try done; lia.
Qed.
Lemma mval_exists s m env : network s -> shaped s m -> exists w, mval s m env w.
Proof.
  intros W Hs. exists (fun n => mval_at (S n) s m env n). split.
  - done.
  - intros k n Hk. cbn [mval_at]. pose proof (net_ins_nodup s W) as Hnd. apply NoDup_cons in Hnd as [Hn0 Hnd].
    rewrite decide_False by (intros ->; apply Hn0; by eapply elem_of_list_lookup_2).
    replace (list_find (eq n) (ins s)) with (Some (k, n)); [done|]. symmetry. apply list_find_Some. split; [done|]. split; [done|].
    intros j y Hj Hlt <-. pose proof (NoDup_lookup _ _ _ _ Hnd Hj Hk). lia.
  - intros n l f Hr El Ef. rewrite (mval_root _ s m env n l f) by done. apply eval_ext. intros i _. destruct (l !! i) as [c|] eqn:Ec; [|done].
    destruct (sh_cell _ _ Hs n Hr) as (l' & f' & El' & Ef' & Hwf & Hn & Hc). rewrite El in El'. injection El' as <-.
    destruct (Hc c) as [Hp Hlt]; [by eapply elem_of_list_lookup_2|]. apply mval_fuel; try done; lia.
Qed.

(* the converted network computes what the cells compute *)
Lemma convert_shaped_spec nb s m : 0 < nb -> network s -> alive s -> npi s = length (ins s) -> shaped s m ->
  exists d, convert_mapped_graph_to_aig nb s m = Some d /\ reachable d /\ npi d = npi s /\ length (ins d) = npi d /\
    npo d = length (pos s) /\ length (outs d) = npo d /\ forall env l, mapped_computes s m env l <-> computes d env l.
Proof.
  intros Hnb W Ha Hci [Hm Hpo Hcell]. set (R := mval s m). pose proof (net_size s W) as Hsz.
  set (t0 := <[0 := Some (Sig 0 false)]> (repeat (@None signal) (size s))).
  assert (Ht0 : length t0 = size s) by (unfold t0; by rewrite !insert_length, repeat_length).
  assert (T0 : t0 !! 0 = Some (Some (Sig 0 false))).
  { unfold t0. rewrite list_lookup_insert; [done|]. rewrite repeat_length. lia. }
  assert (Tn : forall n, 0 < n -> n < size s -> t0 !! n = Some None).
  { intros n H1 H2. unfold t0. rewrite !list_lookup_insert_ne by lia. by apply lookup_repeat_lt. }
  assert (Ep : pis s = ins s) by (unfold pis; rewrite Hci; by rewrite firstn_all).
  pose proof (net_ins_nodup s W) as Hnd. apply NoDup_cons in Hnd as [Hn0 Hnd].
  pose proof (net_ins_valid s W) as Hiv. rewrite Forall_forall in Hiv.
  assert (HH : wp (convert_mapped_m s m) (aig_init_n nb) (fun _ d => reachable d /\ npi d = npi s /\ length (ins d) = npi d /\
    npo d = length (pos s) /\ length (outs d) = npo d /\ forall env w, R env w -> map (sval (ev d env)) (pos d) = map (sval w) (pos s))).
  { unfold convert_mapped_m. fold t0. rewrite Ep. apply wp_bnd.
    eapply wp_mono; [apply (conv_pis_spec R nb (size s) t0 (ins s)); try done|].
    - intros n Hn. apply Tn; [|by apply Hiv]. destruct n; [done|lia].
    - intros n o Ho. pose proof (lookup_lt_Some _ _ _ Ho) as Hlt. assert (wf (aig_init_n nb)) by (apply reachable_wf; by constructor).
      destruct n as [|n].
      + rewrite T0 in Ho. injection Ho as <-. eexists. split; [done|]. split; [unfold valid, size; cbn; lia|]. intros env w HR.
        rewrite (mv_const _ _ _ _ HR). by apply (sval_const _ env false).
      + rewrite Tn in Ho; [done|lia|lia].
    - intros env w k n HR. apply (mv_input _ _ _ _ HR).
    - cbn beta. intros t d (Rd & Ht & Hi & Hp & Ho & Hpo' & Hc).
      destruct (gates_spec s W Ha) as (gs & Egs & Hgnd & Hgs).
      apply wp_bnd, (wp_lift _ gs); [done|]. apply wp_bnd. eapply wp_mono.
      { apply (foldM_wp (mconv_gate m) (fun p t d' => reachable d' /\ ext d d' /\ length t = size s /\
          forall n, n = 0 \/ n ∈ ins s \/ (root s m n /\ n ∈ p) -> exists o, t !! n = Some o /\ conv R d' o n)).
        - split; [done|]. split; [apply ext_refl|]. split; [done|]. intros n [->|[Hn|[_ Hn]]]; [|by apply Hc; left|by apply elem_of_nil in Hn].
          apply Hc. right. eauto.
        - intros p n q t' d' Eg (R' & E' & L' & C').
          assert (Hn : n ∈ gs) by (rewrite Eg; apply elem_of_app; right; apply elem_of_list_here).
          apply Hgs in Hn as Hng. pose proof Hng as (a & b & Hk & _). pose proof (lookup_lt_Some _ _ _ Hk) as Hlt.
          destruct (lookup_lt_is_Some_2 (mm m) n) as [x Hx]; [unfold size in *; lia|].
          unfold mconv_gate. apply wp_bnd. eapply wp_lift; [unfold is_cell_root; rewrite Hx; reflexivity|].
          destruct (negb (bool_decide (x = 0%N))) eqn:Ex.
          2:{ apply wp_ret. split; [done|]. split; [done|]. split; [done|]. intros c Hcc. apply C'.
              destruct Hcc as [?|[?|[Hr [?|Hcn%elem_of_list_singleton]%elem_of_app]]]; [by left|by right; left|by right; right|]. subst c.
              destruct Hr as [_ Hr]. unfold is_cell_root in Hr. rewrite Hx in Hr. cbn in Hr. congruence. }
          assert (Hr : root s m n) by (split; [done|]; unfold is_cell_root; rewrite Hx; cbn; by rewrite Ex).
          destruct (Hcell n Hr) as (l & f & El & Ef & Hwf & Hnv & Hlp).
          apply wp_bnd, (wp_lift _ f); [done|]. apply wp_bnd, (wp_lift _ l); [done|].
          apply wp_bnd. eapply wp_mono; [apply (sop_to_aig_spec R d' _ l); [done|done|done|]|].
          + apply leaves_of_conv. intros c Hcx. destruct (Hlp c Hcx) as [Hpr Hcl]. apply C'.
            destruct Hpr as [?|[?|Hrc]]; [by left|by right; left|]. right. right. split; [done|].
            eapply (gates_before s gs); [done|done|done|exact Eg|apply Hrc|done].
          + cbn beta. intros g d2 (R2 & E2 & V2 & Val2). apply wp_ret. split; [done|]. split; [by eapply ext_trans|]. split; [by rewrite insert_length|].
            intros c Hcc. destruct (decide (c = n)) as [->|Hne].
            * exists (Some g). rewrite list_lookup_insert by (rewrite L'; done). split; [done|]. exists g. split; [done|]. split; [done|].
              intros env w HR. rewrite (Val2 env w HR). symmetry. by apply (mv_cell _ _ _ _ HR).
            * destruct (C' c) as (o & Eo & Hco).
              { destruct Hcc as [?|[?|[? [?|?%elem_of_list_singleton]%elem_of_app]]]; [by left|by right; left|by right; right|done]. }
              exists o. rewrite list_lookup_insert_ne by done. split; [done|]. eapply conv_grows; [by apply ext_grows|done]. }
      cbn beta. intros t' d' (R' & E' & L' & C').
      apply wp_bnd. eapply wp_mono; [apply (conv_pos_spec R t' (pos s) d'); [done| | |]|].
      + by rewrite (ext_outs _ _ E').
      + by rewrite (ext_npo _ _ E').
      + intros f Hf. apply C'. destruct (Hpo f Hf) as [?|[?|Hr]]; [by left|by right; left|]. right. right. split; [done|]. apply Hgs, Hr.
      + cbn beta. intros _ d2 (R2 & I2 & P2 & Po2 & O2 & V2). apply wp_ret. split; [done|].
        assert (npi d2 = npi s) by (rewrite P2, (ext_npi _ _ E'), Hp; done). split; [done|].
        split; [rewrite I2, (ext_ins _ _ E'), Hi; congruence|]. split; [done|]. split; [congruence|]. done. }
  apply wp_elim in HH as (r & d & E & Rd & Hp & Hi & Hpo' & Ho & Hval). exists d. unfold convert_mapped_graph_to_aig. rewrite E. cbn [mbind option_bind].
  split; [done|]. do 5 (split; [done|]). intros env l. pose proof (reachable_wf d Rd) as Wd. split.
  - intros (w & V & ->). exists (ev d env). split; [by apply ev_valuation|]. symmetry. by apply Hval.
  - intros Hl. destruct (mval_exists s m env W (Build_shaped _ _ Hm Hpo Hcell)) as [w V]. exists w. split; [done|].
    apply (computes_unique d env); [by apply wf_network|done|]. exists (ev d env). split; [by apply ev_valuation|]. symmetry. by apply Hval.
Qed.

Lemma compare_spec nb solve s1 s2 b : correct_solver solve -> 0 < nb -> network s1 -> network s2 -> is_combinational s1 = true -> is_combinational s2 = true ->
  (forall d, miter nb s1 s2 = Some (Some d) -> (N.of_nat (2 * size d + length (outs d)) < 2 ^ 31)%N) ->
  compare_by_miter nb solve s1 s2 = Some b -> b = true <-> npi s1 = npi s2 /\ npo s1 = npo s2 /\ forall env l, computes s1 env l <-> computes s2 env l.
Proof.
  intros Hsat Hnb W1 W2 C1 C2 Hsz H. unfold compare_by_miter in H. destruct (C28_miter nb s1 s2 Hnb W1 W2 C1 C2) as [Hne Heq].
  destruct (decide (npi s1 = npi s2 /\ npo s1 = npo s2)) as [[Hi Ho]|Hd].
  2:{ rewrite Hne in H by (destruct (decide (npi s1 = npi s2)); [right; intros ?; apply Hd; done|by left]). cbn in H. injection H as <-. split; [done|]. intros (? & ? & _). exfalso. by apply Hd. }
  destruct (Heq Hi Ho) as (d & Ed & _). rewrite Ed in H. cbn [mbind option_bind] in H. apply bind_Some in H as ([r cex] & Er & Hr). cbn in Hr. subst r.
  destruct (C30_miter solve nb s1 s2 d (Some b) cex Hsat Hnb W1 W2 C1 C2 Ed (Hsz d Ed) Er) as (V1 & V2 & _). split.
  - intros ->. specialize (V1 eq_refl). split; [done|]. split; [done|]. intros env l.
    destruct (net_valuation s1 env W1) as [v V]. destruct (net_valuation s2 env W2) as [w V'].
    assert (Hv : computes s1 env (map (sval v) (pos s1))) by (by exists v). assert (Hw : computes s2 env (map (sval w) (pos s2))) by (by exists w).
    pose proof (V1 env _ _ Hv Hw) as Hvw. split; intros Hl.
    + rewrite (computes_unique _ _ _ _ W1 Hl Hv), Hvw. done.
    + rewrite (computes_unique _ _ _ _ W2 Hl Hw), <- Hvw. done.
  - intros (_ & _ & Hs). destruct b; [done|]. destruct (V2 eq_refl) as [_ H2]. exfalso.
    set (env := fun k => nth k cex false) in H2. destruct (net_valuation s1 env W1) as [v V].
    assert (Hv : computes s1 env (map (sval v) (pos s1))) by (by exists v). exact (H2 _ _ Hv (proj1 (Hs _ _) Hv) eq_refl).
Qed.
