From Verif Require Import Base Aig AigSem AigProofs AigApi NetProofs Clean Tt TtProofs TtCache TtCacheProofs Cut CutProofs CutEnum CutEnumProofs Choice ChoiceProofs
  ChoiceCompute ChoiceComputeProofs Mapping MappingProofs PropMapping KlutMapping KlutMappingProofs.

(* ---- the order of the nodes ---- *)
Section topo.
Variable c : cnet.
Notation s := (cb c).
Definition dpost (x x' : list nat * list nat) : Prop :=
  (forall n, n ∈ x.1 -> n ∈ x'.1) /\ (length x.2 <= size s -> length x'.2 <= size s) /\
  exists r, x'.2 = x.2 ++ r /\ (forall n, n ∈ x'.1 -> n ∈ x.1 \/ n ∈ r) /\
    forall n, n ∈ r -> n < size s /\ (forall m, fanin s n m -> m ∈ x'.1) /\ (forall m, link c n m -> m ∈ x'.1).
Lemma dpost_refl x : dpost x x.
Proof. split; [done|]. split; [done|]. exists []. rewrite app_nil_r. split; [done|]. split; [auto|]. intros n ?%not_elem_of_nil. done. Qed.
Lemma dpost_trans x y z : dpost x y -> dpost y z -> dpost x z.
Proof.
  intros (M1 & L1 & r1 & E1 & V1 & H1) (M2 & L2 & r2 & E2 & V2 & H2). split; [auto|]. split; [auto|]. exists (r1 ++ r2).
  split; [by rewrite E2, E1, app_assoc|]. split.
  - intros n Hn. rewrite elem_of_app. destruct (V2 n Hn) as [Hy|]; [|auto]. destruct (V1 n Hy); auto.
  - intros n [Hn|Hn]%elem_of_app; [|by apply H2]. destruct (H1 n Hn) as (? & Hf & Hl). repeat split; eauto.
Qed.
Lemma dfs_topo_pt : forall fuel n x, wpt True (dfs_topo c fuel n) x (fun _ y => dpost x y /\ n ∈ y.1).
Proof.
  induction fuel as [|fuel IH]; intros n x; [done|]. unfold wpt. cbn [dfs_topo].
  destruct (ks s !! n) as [[a b]|] eqn:Ek; cbn [mbind option_bind]; [|done]. case_decide as Hv; [split; [apply dpost_refl|done]|].
  destruct (equivs c !! n) as [e|] eqn:Ee; cbn [mbind option_bind]; [|done].
  match goal with |- match ?m x with _ => _ end => change (wpt True m x (fun _ y => dpost x y /\ n ∈ y.1)) end.
  apply wpt_bnd. apply (wpt_mono _ _ _ (fun _ y => dpost x y /\ forall m, e = Some m -> m ∈ y.1)).
  { destruct e as [m|]; [|split; [apply dpost_refl|done]]. eapply wpt_mono; [apply IH|]. intros _ y [H1 H2]. split; [done|]. by intros ? [= <-]. }
  intros _ x1 [D1 Hm]. apply wpt_bnd. unfold wpt at 1.
  apply wpt_bnd. eapply wpt_mono; [apply IH|]. intros _ x2 [D2 Ha]. apply wpt_bnd. eapply wpt_mono; [apply IH|]. intros _ x3 [D3 Hb].
  pose proof (dpost_trans _ _ _ D2 D3) as D. assert (Ha3 : sidx a ∈ x3.1) by (by apply D3). clear D2 D3.
  unfold wpt. case_decide as Hl; [|done]. destruct D as (M & L & r & Er & V & H). cbn [fst snd] in *.
  split; [|apply M; by left]. destruct D1 as (M1 & L1 & r1 & E1 & V1 & H1). split; [|split; [|exists (r1 ++ r ++ [n]); split; [|split]]]; cbn [fst snd].
  - intros k Hk. apply M. right. auto.
  - rewrite app_length. cbn. lia.
  - by rewrite Er, E1, !app_assoc.
  - intros k Hk. rewrite !elem_of_app, elem_of_list_singleton. destruct (V k Hk) as [[->|Hk1]%elem_of_cons|]; [auto| |auto].
    destruct (V1 k Hk1); auto.
  - intros k. rewrite !elem_of_app, elem_of_list_singleton. intros [Hk|[Hk| ->]].
    + destruct (H1 k Hk) as (? & Hf & Hl'). split; [done|]. split; intros; apply M; right; eauto.
    + by apply H.
    + split; [by eapply lookup_lt_Some|]. split.
      * intros m (a' & b' & E' & _ & _ & Hm'). rewrite Ek in E'. injection E' as <- <-. by destruct Hm' as [->| ->].
      * intros m Hl'. unfold link in Hl'. rewrite Ee in Hl'. injection Hl' as ->. apply M. right. by apply Hm.
Qed.
Definition inorder (order : list nat) (n : nat) : Prop := n = 0 \/ n ∈ order.
Lemma topologize_spec order : topologize c = Some order -> (forall n m, link c n m -> m < n) ->
  length order = size s /\ (forall n, n ∈ order -> n < size s \/ n = 0) /\
  (forall f, f ∈ outs s -> inorder order (sidx f)) /\
  (forall n m, inorder order n -> fanin s n m -> inorder order m) /\ (forall n m, inorder order n -> link c n m -> inorder order m).
Proof.
  unfold topologize. intros E Hlink.
  destruct (mapM (fun f => dfs_topo c (kfuel c) (sidx f)) (outs s) ([0], [])) as [[q x]|] eqn:Em; cbn [mbind option_bind] in E; [|done].
  injection E as <-.
  assert (H : dpost ([0], []) x /\ forall f, f ∈ outs s -> sidx f ∈ x.1).
  { revert Em. generalize ([0] : list nat, [] : list nat) as y. revert q. generalize (outs s) as l. induction l as [|f l IH]; intros q y Em.
    - cbn in Em. injection Em as _ <-. split; [apply dpost_refl|]. intros f ?%not_elem_of_nil. done.
    - cbn [mapM] in Em. unfold bnd at 1 in Em. destruct (dfs_topo c (kfuel c) (sidx f) y) as [[u y1]|] eqn:E1; [|done].
      unfold bnd at 1 in Em. destruct (mapM (fun f => dfs_topo c (kfuel c) (sidx f)) l y1) as [[us y2]|] eqn:E2; [|done]. injection Em as _ <-.
      destruct (wpt_some True _ _ _ _ _ (dfs_topo_pt (kfuel c) (sidx f) y) E1) as [D1 H1]. destruct (IH _ _ E2) as [D2 H2].
      split; [exact (dpost_trans _ _ _ D1 D2)|]. intros g [->|Hg]%elem_of_cons; [by apply D2|auto]. }
  destruct H as ((M & L & r & Er & V & Hr) & Ho). cbn [fst snd] in *. rewrite app_nil_l in Er. specialize (L ltac:(cbn; lia)). rewrite Er in *.
  assert (Hv : forall n, n ∈ x.1 -> inorder (r ++ repeat 0 (size s - length r)) n).
  { intros n [->%elem_of_list_singleton|Hn]%V; [by left|right; apply elem_of_app; by left]. }
  assert (Hi : forall n, inorder (r ++ repeat 0 (size s - length r)) n -> n = 0 \/ n ∈ r).
  { intros n [->|[Hn|Hn%elem_of_list_In%repeat_spec]%elem_of_app]; auto. }
  split; [rewrite app_length, repeat_length; lia|]. split; [|split; [|split]].
  - intros n [Hn|Hn%elem_of_list_In%repeat_spec]%elem_of_app; [left; by apply Hr|by right].
  - intros f Hf. by apply Hv, Ho.
  - intros n m [->|Hn]%Hi Hf; [destruct Hf as (? & ? & _ & ? & _); done|]. apply Hv. destruct (Hr n Hn) as (_ & H1 & H2). eauto.
  - intros n m [->|Hn]%Hi Hf; [apply Hlink in Hf; lia|]. apply Hv. destruct (Hr n Hn) as (_ & H1 & H2). eauto.
Qed.
End topo.

(* ---- the cells of the final mapping ---- *)
Section derive.
Context (A : fops) (c : cnet).
Notation s := (cb c).
Variable t : kst A.
Definition active (n : nat) : Prop := 0 < refs A t n /\ is_ci s n = Some false /\ n <> 0.
(* the calls on the mapping view *)
Record derived (l : list nat) (ops : list mop) : Prop := {
  de_act : forall n, n ∈ l -> active n -> exists x f, best A t !! n = Some x /\ 1 < length (lvs x) /\ cache_get (fid x) (tts A t) = Some f /\
    forall c0 g0, fold_left cells_step ops c0 n = Some (lvs x) /\ fold_left functions_step ops g0 n = f;
  de_other : forall n c0, ~ (n ∈ l /\ active n) -> fold_left cells_step ops c0 n = c0 n;
  de_ops : forall o, o ∈ ops -> exists n x f, n ∈ l /\ active n /\ best A t !! n = Some x /\ cache_get (fid x) (tts A t) = Some f /\ (o = MAdd n (lvs x) \/ o = MSet n f)
}.
Lemma derive_ops size0 : forall l m m', fold_opt (derive_node A c t) m l = Some m' ->
  exists ops, mrun size0 ops m = Some m' /\ derived l ops /\ length ops <= 2 * length l.
Proof.
  induction l as [|n l IH]; intros m m' E; cbn [fold_opt] in E.
  - injection E as <-. exists []. split; [done|]. split; [|cbn; lia]. split; [intros n ?%not_elem_of_nil; done|done|intros o ?%not_elem_of_nil; done].
  - apply bind_Some in E as (m1 & E1 & E). destruct (IH _ _ E) as (ops & Hr & [D1 D2 D3] & Hlen). clear IH E.
    unfold derive_node in E1. apply bind_Some in E1 as (ci & Eci & E1). cbn [length].
    destruct (bool_decide (refs A t n = 0) || ci || bool_decide (n = 0)) eqn:Eb.
    + injection E1 as <-. exists ops. split; [done|]. split; [|lia].
      assert (Hna : ~ active n).
      { intros (H1 & H2 & H3). rewrite Eci in H2. injection H2 as ->. rewrite !bool_decide_false in Eb by lia. done. }
      split.
      * intros k [->|Hk]%elem_of_cons Ha; [done|]. by apply D1.
      * intros k c0 Hk. apply D2. intros [? ?]. apply Hk. split; [by right|done].
      * intros o Ho. destruct (D3 o Ho) as (k & x & f & Hk & Hr'). exists k, x, f. split; [by right|done].
    + apply bind_Some in E1 as (x & Ex & E1). destruct (decide (1 < length (lvs x))) as [Hl|]; [|done].
      apply bind_Some in E1 as (m2 & E2 & E1). apply bind_Some in E1 as (f & Ef & E1).
      assert (Ha : active n).
      { apply orb_false_iff in Eb as [[H1%bool_decide_eq_false ->]%orb_false_iff H2%bool_decide_eq_false]. split; [lia|done]. }
      exists (MAdd n (lvs x) :: MSet n f :: ops). split; [|split; [|cbn [length]; lia]].
      { unfold mrun in *. cbn [fold_opt mstep]. rewrite E2. cbn [mbind option_bind]. rewrite E1. exact Hr. }
      split.
      * intros k Hk Hka. destruct (decide (k ∈ l)) as [Hkl|Hkl].
        -- destruct (D1 k Hkl Hka) as (y & g & Hy & Hly & Hg & Hc). exists y, g. repeat split; try done; cbn [fold_left]; apply Hc; done.
        -- apply elem_of_cons in Hk as [->|Hk]; [|done]. exists x, f. split; [done|]. split; [done|]. split; [done|]. intros c0 g0. cbn [fold_left cells_step functions_step].
           rewrite D2 by tauto. split; [unfold Mapping.upd; by rewrite decide_True|].
           assert (Hg : forall g1, fold_left functions_step ops g1 n = g1 n).
           { assert (Hno : forall o, o ∈ ops -> forall f', o <> MSet n f').
             { intros o Ho f' ->. destruct (D3 _ Ho) as (k & y & g & Hk & _ & _ & _ & [?|[= -> ->]]); done. }
             clear -Hno. induction ops as [|o ops IH]; intros g1; cbn [fold_left]; [done|]. rewrite IH by (intros; apply Hno; by right).
             specialize (Hno o ltac:(by left)). destruct o as [| | |k g]; cbn; try done. unfold Mapping.upd. case_decide; [|done]. subst. by destruct (Hno g). }
           rewrite Hg. unfold Mapping.upd. by rewrite decide_True.
      * intros k c0 Hk. cbn [fold_left]. rewrite D2.
        -- cbn [cells_step]. destruct (decide (k = n)) as [->|Hne]; [exfalso; apply Hk; split; [by left|done]|]. unfold Mapping.upd. by rewrite decide_False.
        -- intros [? ?]. apply Hk. split; [by right|done].
      * intros o [->|[->|Ho]%elem_of_cons]%elem_of_cons.
        -- exists n, x, f. repeat split; try done; [by left|apply Ha..|by left].
        -- exists n, x, f. repeat split; try done; [by left|apply Ha..|by right].
        -- destruct (D3 o Ho) as (k & y & g & Hk & Hr'). exists k, y, g. split; [by right|done].
Qed.
End derive.

Lemma sum_words_le k ops : (forall o, o ∈ ops -> mop_words o <= k) -> sum_list (map mop_words ops) <= length ops * k.
Proof.
  induction ops as [|o ops IH]; intros H; cbn [map sum_list length]; [done|]. specialize (H o ltac:(by left)) as Ho.
  specialize (IH ltac:(intros; apply H; by right)). change (mop_words o + sum_list (map mop_words ops) <= S (length ops) * k). lia.
Qed.
Lemma sum_tables_le ops : sum_list (map mop_tables ops) <= length ops.
Proof.
  induction ops as [|o ops IH]; [done|]. change (mop_tables o + sum_list (map mop_tables ops) <= S (length ops)).
  assert (mop_tables o <= 1) by (destruct o; cbn; lia). lia.
Qed.

Lemma klut_mapping_cover (A : fops) c cap max stale p m :
  (forall l, stale l ≡ₚ l) -> 0 < max -> reachable (cb c) -> (forall n m, link c n m -> m < n /\ alike (cb c) n m) ->
  (N.of_nat (8 + size (cb c) * (8 + 2 * cut_size (kcut p) + 6 * (max * max))) <= 2 ^ 31)%N ->
  klut_mapping A c cap max stale p = Some m ->
  cover (cb c) m lt /\
  (forall n l, root (cb c) m n -> cell_fanin m n = Some l -> 2 <= length l <= cut_size (kcut p)) /\
  (forall f, f ∈ pos (cb c) -> is_gate (cb c) (sidx f) -> has_mapping m = true).
Proof.
  intros Hstale Hmax R Hlk HB E. set (s := cb c) in *. set (ps := kcut p) in *.
  pose proof (reachable_wf _ R) as Wf. pose proof (wf_network _ Wf) as W.
  unfold klut_mapping in E. destruct (map_rounds A c cap max stale p) as [[order t]|] eqn:Er; cbn [mbind option_bind] in E; [|done].
  assert (Hlt : forall n m, link c n m -> m < n) by (intros; by apply Hlk).
  assert (Hrel : forall n m, link c n m -> m < n /\
    forall pn pm env v, ph s !! n = Some pn -> ph s !! m = Some pm -> valuation s env v -> v n = xorb (v m) (xorb pn pm)).
  { intros n m' Hl. destruct (Hlk n m' Hl) as [H1 H2]. split; [done|]. intros pn pm env v E1 E2 V.
    pose proof (reach_phase s n m' pn pm R E1 E2 H2 env) as H. destruct H2 as [cc H2].
    rewrite (H2 env v V). rewrite (H2 env _ (ev_valuation s env Wf)) in H. by destruct (v m'), (ev s env m'), cc, pn, pm. }
  assert (HBs : 1 + 2 * size s * (2 + cut_size ps) + 6 * (size s * (max * max)) + 2 * size s <= 8 + size s * (8 + 2 * cut_size ps + 6 * (max * max))) by lia.
  pose proof (fun n m => fanin_less s n m R) as Htopo.
  (* with the trivial closed set, to get the order *)
  assert (Ho : exists o, topologize c = Some o /\ o = order).
  { unfold map_rounds in Er. apply bind_Some in Er as ([q t0] & _ & Er). cbn in Er. apply bind_Some in Er as (o & Eo & Er).
    apply bind_Some in Er as ([r t1] & _ & Er). injection Er as -> ->. eauto. }
  destruct Ho as (o & Eo & ->). destruct (topologize_spec c order Eo Hlt) as (Hlen & Hin & Hout & Hcl & Hclink). fold s in Hlen, Hin, Hout, Hcl.
  destruct (map_rounds_inv A c cap max stale Hstale Hmax Htopo Hrel (inorder order) Hcl Hclink ps p order t Er eq_refl) as [_ HI].
  { intros o Eo'. rewrite Eo in Eo'. by injection Eo' as <-. }
  { fold s. lia. }
  fold s in HI. unfold derive_final in E. fold s in E.
  destruct ((clear_refs A;;; mapM (fun f => mark_ref A c (kfuel c) (sidx f)) (pos s)) t) as [[q u]|] eqn:Em; cbn [mbind option_bind] in E; [|done].
  set (t0 := set_refs A (fun _ => 0) t). assert (HI0 : kinv A c cap max (inorder order) ps (2 + 6 * (size s * (max * max))) t0).
  { eapply frame_kinv; [|exact HI]. done. }
  assert (Hmk : marks A c (inorder order) t0 u /\ forall f, f ∈ pos s -> 0 < refs A u (sidx f)).
  { assert (Em' : mapM (fun f => mark_ref A c (kfuel c) (sidx f)) (pos s) t0 = Some (q, u)) by exact Em.
    assert (Hp : forall f, f ∈ pos s -> inorder order (sidx f)).
    { intros f Hf. apply Hout. unfold pos in Hf. rewrite <- (take_drop (npo s) (outs s)). apply elem_of_app. by left. }
    clear -Em' Hp HI0 Hstale Hmax Htopo Hrel Hcl Hclink. revert q Em' HI0 Hp. generalize t0. generalize (pos s). induction l as [|f l IH]; intros t1 q Em HI Hp.
    - cbn in Em. injection Em as _ <-. split; [exact (marks_refl A c max Hmax _ _)|]. intros f ?%not_elem_of_nil. done.
    - cbn [mapM] in Em. unfold bnd at 1 in Em. destruct (mark_ref A c (kfuel c) (sidx f) t1) as [[v t2]|] eqn:E1; [|done].
      unfold bnd at 1 in Em. destruct (mapM (fun f => mark_ref A c (kfuel c) (sidx f)) l t2) as [[us t3]|] eqn:E2; [|done]. injection Em as _ <-.
      destruct (wpt_some True _ _ _ _ _ (mark_ref_pt A c cap max Hmax (inorder order) ps _ (kfuel c) (sidx f) t1 HI (Hp f ltac:(by left))) E1) as [D1 H1].
      destruct (IH _ _ E2) as [D2 H2]; [exact (frame_kinv _ _ _ _ _ _ _ _ _ (proj1 D1) HI)|intros; apply Hp; by right|].
      split; [exact (marks_trans A c max Hmax _ _ _ _ D1 D2)|]. intros g [->|Hg]%elem_of_cons; [by apply D2|auto]. }
  destruct Hmk as [(Fr & _ & Hnew) Hpo]. pose proof (frame_kinv _ _ _ _ _ _ _ _ _ Fr HI0) as HIu.
  assert (Hmarked : forall n, 0 < refs A u n -> inorder order n /\ (source c n \/ exists y, best A u !! n = Some y /\ forall l, l ∈ lvs y -> 0 < refs A u l)).
  { intros n Hn. destruct (Hnew n Hn eq_refl) as [H1 H2]. destruct Fr as (_ & -> & _). done. }
  clear Hnew Fr HI0 t0 Em HI Er.
  destruct (derive_ops A c u (size s) (rev order) _ _ E) as (ops & Hrun & [D1 D2 D3] & Hops). rewrite rev_length, Hlen in Hops.
  assert (Hrev : forall n, n ∈ rev order <-> n ∈ order) by (intros n; rewrite !elem_of_list_In; symmetry; apply in_rev).
  assert (Hsz : forall n, n ∈ order -> n < size s) by (intros n [?| ->]%Hin; [done|by apply net_size]).
  assert (Hlook : forall n, ~ source c n -> n < size s -> is_gate s n).
  { intros n Hns Hn. destruct (net_cases s n W Hn) as [->|[[k Hk]|(H0 & a & b & Ek & Hab)]]; [by destruct Hns; right| |by exists a, b].
    destruct Hns. left. unfold is_ci. fold s. destruct (net_in _ W k n Hk) as [_ ->]. cbn. by rewrite bool_decide_true. }
  assert (Hga : forall n, is_gate s n -> is_ci s n = Some false /\ n <> 0).
  { intros n (a & b & Ek & H0 & Hab). split; [|done]. unfold is_ci. rewrite Ek. cbn. by rewrite bool_decide_false. }
  assert (Hag : forall n, n < size s -> active A c u n -> is_gate s n).
  { intros n Hn (_ & H1 & H2). apply Hlook; [|done]. intros [H3|H3]; [|done]. fold s in H1, H3. congruence. }
  (* cells of active nodes *)
  assert (Hgood : forall n x f, n ∈ order -> active A c u n -> best A u !! n = Some x -> 1 < length (lvs x) -> cache_get (fid x) (tts A u) = Some f ->
    length (lvs x) <= cut_size ps /\ tt_wf f /\ cut_function s n (lvs x) f /\ (forall l, l ∈ lvs x -> l < n /\ 0 < refs A u l)).
  { intros n x f Hn Ha Hx Hl Hf. destruct (ki_bests _ _ _ _ _ _ _ _ HIu n x Hx) as [E0|G]; [rewrite E0 in Hl; cbn in Hl; lia|].
    destruct (kg_fun _ _ _ _ _ _ _ _ G) as (f' & Hf' & Hw & Hc). rewrite Hf in Hf'. injection Hf' as <-. split; [|split; [done|split; [done|]]].
    - pose proof (kg_len _ _ _ _ _ _ _ _ G). lia.
    - intros l Hll. split.
      + destruct (kg_below _ _ _ _ _ _ _ _ G) as [E0|Hb]; [rewrite E0 in Hl; cbn in Hl; lia|by apply Hb].
      + destruct (Hmarked n (proj1 Ha)) as [_ [[Hs|Hs]|(y & Hy & Hyl)]].
        * destruct Ha as (_ & Ha & _). congruence.
        * destruct Ha as (_ & _ & Ha). done.
        * rewrite Hx in Hy. injection Hy as <-. auto. }
  destruct (C18_mapping_view (size s) ops) as (m' & Hrun' & _ & Hhas & Hcells).
  { apply Forall_forall. intros o Ho. destruct (D3 o Ho) as (n & x & f & Hn%Hrev & Ha & Hx & Hf & Ho').
    destruct (D1 n (proj2 (Hrev n) Hn) Ha) as (x' & f' & Hx' & Hl & Hf' & _). rewrite Hx in Hx'. injection Hx' as <-.
    destruct (Hgood n x f Hn Ha Hx Hl Hf) as (_ & Hw & _ & Hlf).
    destruct Ho' as [->| ->]; cbn; (split; [by apply Hsz|]); [|done]. apply Forall_forall. intros l Hll. specialize (Hlf l Hll). specialize (Hsz n Hn). lia. }
  { assert (Hw : sum_list (map mop_words ops) <= length ops * (1 + cut_size ps)).
    { apply sum_words_le. intros o Ho. destruct (D3 o Ho) as (n & x & f & Hn%Hrev & Ha & Hx & Hf & Ho').
      destruct (D1 n (proj2 (Hrev n) Hn) Ha) as (x' & f' & Hx' & Hl & Hf' & _). rewrite Hx in Hx'. injection Hx' as <-.
      destruct (Hgood n x f Hn Ha Hx Hl Hf) as (Hc & _). destruct Ho' as [->| ->]; cbn; lia. }
    assert (length ops * (1 + cut_size ps) <= 2 * size s * (1 + cut_size ps)) by (apply Nat.mul_le_mono_r; lia). lia. }
  { pose proof (sum_tables_le ops). lia. }
  rewrite Hrun in Hrun'. injection Hrun' as <-.
  assert (Hcell : forall n, is_gate s n -> n ∈ order -> 0 < refs A u n -> is_cell_root m n = Some true).
  { intros n Hg Hn Hr. destruct (Hcells n (Hsz n Hn)) as (-> & _ & _). destruct (Hga n Hg) as [H1 H2].
    destruct (D1 n (proj2 (Hrev n) Hn)) as (x & f & _ & _ & _ & Hc); [done|]. unfold cells. destruct (Hc (fun _ => None) (fun _ => tt_const 0 false)) as [-> _]. done. }
  assert (Hroot : forall n, root s m n -> exists x f, n ∈ order /\ active A c u n /\ best A u !! n = Some x /\ 1 < length (lvs x) /\ cache_get (fid x) (tts A u) = Some f /\
    cell_fanin m n = Some (lvs x) /\ cell_function m n = Some f).
  { intros n [Hg Hc]. assert (Hn : n < size s) by (destruct Hg as (a & b & Ek & _); by eapply lookup_lt_Some).
    destruct (Hcells n Hn) as (Hc' & Hf & Hfn). rewrite Hc in Hc'. injection Hc' as Hc'. symmetry in Hc'. apply bool_decide_eq_true in Hc'.
    assert (Hna : n ∈ order /\ active A c u n).
    { destruct (decide (n ∈ order)) as [Hno|Hno]; [split; [done|]|].
      - destruct (Hga n Hg) as [H1 H2]. split; [|done]. destruct (decide (0 < refs A u n)); [done|]. exfalso.
        unfold cells in Hc'. rewrite D2 in Hc' by (intros [_ [? _]]; done). by destruct Hc'.
      - exfalso. unfold cells in Hc'. rewrite D2 in Hc' by (intros [?%Hrev _]; done). by destruct Hc'. }
    destruct Hna as [Hno Ha]. destruct (D1 n (proj2 (Hrev n) Hno) Ha) as (x & f & Hx & Hl & Hgf & Hcf). exists x, f.
    destruct (Hcf (fun _ => None) (fun _ => tt_const 0 false)) as [Hc1 Hc2]. repeat split; try done; [apply Ha..|by apply Hf|].
    rewrite Hfn. unfold functions. by rewrite Hc2. }
  assert (Hprov : forall n, 0 < refs A u n -> provided s m n).
  { intros n Hn. destruct (Hmarked n Hn) as [[->|Ho] _]; [by left|]. pose proof (Hsz n Ho) as Hns.
    destruct (net_cases s n W Hns) as [->|[[k Hk]|(H0 & a & b & Ek & Hab)]]; [by left|right; left; by eapply elem_of_list_lookup_2|].
    right; right. split; [by exists a, b|]. apply Hcell; [by exists a, b|done|done]. }
  split; [|split].
  - split.
    + destruct (decide (size s <= length (mm m))) as [?|Hn]; [lia|]. exfalso. pose proof (net_size s W). destruct (Hcells (length (mm m)) ltac:(lia)) as (Hc & _).
      unfold is_cell_root in Hc. rewrite lookup_ge_None_2 in Hc by lia. done.
    + intros f Hf. by apply Hprov, Hpo.
    + intros n Hr. destruct (Hroot n Hr) as (x & f & Hn & Ha & Hx & Hl & Hf & Hc1 & Hc2). exists (lvs x), f.
      destruct (Hgood n x f Hn Ha Hx Hl Hf) as (_ & Hw & [Hnv Hcf] & Hll). split; [done|]. split; [done|]. split; [done|]. split; [done|]. split.
      * intros l Hl'. destruct (Hll l Hl'). split; [by apply Hprov|done].
      * intros env v V. symmetry. by apply (Hcf env).
  - intros n l Hr Hc. destruct (Hroot n Hr) as (x & f & Hn & Ha & Hx & Hl & Hf & Hc1 & Hc2). rewrite Hc in Hc1. injection Hc1 as ->.
    destruct (Hgood n x f Hn Ha Hx Hl Hf) as (? & _). lia.
  - intros f Hf Hg. apply Hhas. exists (sidx f). destruct (Hmarked (sidx f) (Hpo f Hf)) as [[H0|Ho] _].
    + destruct Hg as (a & b & _ & ? & _). done.
    + split; [by apply Hsz|]. pose proof (Hcell _ Hg Ho (Hpo f Hf)) as Hc. destruct (Hcells _ (Hsz _ Ho)) as (Hc' & _). rewrite Hc in Hc'. injection Hc' as Hc'.
      symmetry in Hc'. by apply bool_decide_eq_true in Hc'.
Qed.
