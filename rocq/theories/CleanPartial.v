(* cleanup_dangling on networks that may be cyclic: if it returns, what it copied was
   acyclic, and the copy computes the functions of the network. *)
From Verif Require Import Base Aig AigSem AigProofs Topo TopoProofs Clean NetProofs CleanProofs Subst SubstProofs PropNet.

Section topo.
Variables (fan fan' : nat -> option (list nat)) (tid : nat).
Hypothesis Htid : 2 <= tid.
Record pinv (x : tst) : Prop := {
  pi_mark : forall m, x.1 !! m = Some tid -> m ∈ x.2;
  pi_after : forall i n c, x.2 !! i = Some n -> edge fan n c -> exists j, j < i /\ x.2 !! j = Some c
}.
Definition agree (l : list nat) : Prop := forall m, m ∈ l -> fan' m = fan m.
(* a run that returns *)
Definition pstep (f f' : M tst unit) (P : tst -> Prop) : Prop := forall x u x', f x = Some (u, x') -> pinv x ->
  pinv x' /\ P x' /\ (exists e, x'.2 = x.2 ++ e) /\ (agree x'.2 -> f' x = Some (u, x')).
Lemma pstep_mapM (f f' : nat -> M tst unit) l : (forall n, n ∈ l -> pstep (f n) (f' n) (fun x => n ∈ x.2)) ->
  forall x u x', mapM f l x = Some (u, x') -> pinv x ->
    pinv x' /\ (forall n, n ∈ l -> n ∈ x'.2) /\ (exists e, x'.2 = x.2 ++ e) /\ (agree x'.2 -> mapM f' l x = Some (u, x')).
Proof.
  induction l as [|n l IH]; intros Hf x u x' H Hx; cbn [mapM] in *.
  - injection H as <- <-. split; [done|]. split; [by intros n ?%elem_of_nil|]. split; [exists []; by rewrite app_nil_r|done].
  - unfold bnd in *. destruct (f n x) as [[u1 x1]|] eqn:E1; [|done]. destruct (mapM f l x1) as [[us x2]|] eqn:E2; [|done]. injection H as <- <-.
    destruct (Hf n ltac:(left) x u1 x1 E1 Hx) as (Hx1 & Hn & (e1 & He1) & A1).
    destruct (IH ltac:(intros; apply Hf; by right) x1 us x2 E2 Hx1) as (Hx2 & Hl & (e2 & He2) & A2).
    split; [done|]. split; [|split].
    + intros k [->|Hk]%elem_of_cons; [|by apply Hl]. rewrite He2. apply elem_of_app. by left.
    + exists (e1 ++ e2). by rewrite He2, He1, app_assoc.
    + intros Ha. rewrite A1; [|intros m Hm; apply Ha; rewrite He2; apply elem_of_app; by left]. by rewrite A2.
Qed.
Lemma pinv_push n x : pinv x -> (forall c, edge fan n c -> c ∈ x.2) -> pinv (<[n := tid]> x.1, x.2 ++ [n]).
Proof.
  intros Hx Hc. split; cbn [fst snd].
  - intros m Hm. destruct (decide (m = n)) as [->|Hne]; [apply elem_of_app; right; left|].
    rewrite list_lookup_insert_ne in Hm by done. apply elem_of_app. left. by apply Hx.
  - intros i k c Hi He. apply lookup_app_Some in Hi as [Hi|[Hge Hi]].
    + destruct (pi_after _ Hx i k c Hi He) as (j & Hj & Ej). exists j. split; [done|]. by apply lookup_app_l_Some.
    + apply list_lookup_singleton_Some in Hi as [_ <-]. apply Hc in He. apply elem_of_list_lookup in He as [j Hj].
      exists j. pose proof (lookup_lt_Some _ _ _ Hj). split; [lia|]. by apply lookup_app_l_Some.
Qed.
Lemma topo_rec_part fuel n : pstep (topo_rec fan tid fuel n) (topo_rec fan' tid fuel n) (fun x => n ∈ x.2).
Proof using Htid.
  revert n. induction fuel as [|fuel IH]; intros n x u x' H Hx; [done|]. cbn [topo_rec] in *.
  apply bind_Some in H as (v & Ev & H). rewrite Ev. cbn [mbind option_bind]. destruct (decide (v = tid)) as [->|Hv].
  { injection H as <- <-. split; [done|]. split; [by apply Hx|]. split; [exists []; by rewrite app_nil_r|done]. }
  destruct (decide (v = tid - 1)); [done|]. apply bind_Some in H as (cs & Ec & H). apply bind_Some in H as ([us x1] & Em & [= <- <-]).
  assert (Hx0 : pinv (<[n := tid - 1]> x.1, x.2)).
  { split; cbn [fst snd]; [|apply Hx]. intros m Hm. destruct (decide (m = n)) as [->|Hne].
    - rewrite list_lookup_insert in Hm by (by eapply lookup_lt_Some). injection Hm. lia.
    - rewrite list_lookup_insert_ne in Hm by done. by apply Hx. }
  destruct (pstep_mapM (topo_rec fan tid fuel) (topo_rec fan' tid fuel) cs (fun c _ => IH c) _ _ _ Em Hx0) as (Hx1 & Hl & (e & He) & A).
  cbn [fst snd] in *. split; [|split; [|split]].
  - apply pinv_push; [done|]. intros c (cs' & Ec' & Hc). apply Hl. congruence.
  - apply elem_of_app. right. left.
  - exists (e ++ [n]). by rewrite He, app_assoc.
  - intros Ha. rewrite (Ha n), Ec by (apply elem_of_app; right; left). cbn [mbind option_bind].
    rewrite A by (intros m Hm; apply Ha; apply elem_of_app; by left). done.
Qed.
Lemma topo_run_part size sources roots x u x' : (forall n c, n ∈ sources -> ~ edge fan n c) ->
  topo_run fan tid size sources roots x = Some (u, x') -> pinv x ->
  pinv x' /\ (forall n, n ∈ sources \/ n ∈ roots -> n ∈ x'.2) /\ (agree x'.2 -> topo_run fan' tid size sources roots x = Some (u, x')).
Proof using Htid.
  intros Hs H Hx. unfold topo_run in *. unfold bnd in H |- *.
  destruct (mapM (topo_source tid) sources x) as [[u1 x1]|] eqn:E1; [|done]. destruct (mapM (topo_root fan tid size) roots x1) as [[u2 x2]|] eqn:E2; [|done].
  injection H as <- <-.
  destruct (pstep_mapM (topo_source tid) (topo_source tid) sources) with (2 := E1) as (Hx1 & H1 & _ & _); [|done|].
  { intros n Hn y w y' H Hy. unfold topo_source in *. apply bind_Some in H as (v & Ev & H). case_decide; injection H as <- <-.
    - split; [done|]. split; [apply Hy; congruence|]. split; [exists []; by rewrite app_nil_r|]. intros _. rewrite Ev. cbn. by rewrite decide_True.
    - split; [apply pinv_push; [done|]; intros c Hc; by apply Hs in Hc|]. split; [apply elem_of_app; right; left|]. split; [by eexists|].
      intros _. rewrite Ev. cbn. by rewrite decide_False. }
  destruct (pstep_mapM (topo_root fan tid size) (topo_root fan' tid size) roots) with (2 := E2) as (Hx2 & H2 & (e & He) & A); [|done|].
  { intros n Hn y w y' H Hy. unfold topo_root in *. apply bind_Some in H as (v & Ev & H). rewrite Ev. cbn [mbind option_bind]. case_decide.
    - injection H as <- <-. split; [done|]. split; [apply Hy; congruence|]. split; [exists []; by rewrite app_nil_r|done].
    - exact (topo_rec_part _ _ _ _ _ H Hy). }
  split; [done|]. split; [|intros Ha; by rewrite A]. intros n [Hn|Hn]; [|by apply H2]. rewrite He. apply elem_of_app. left. by apply H1.
Qed.
End topo.

(* the network without the gates outside l *)
Definition prune_key (l : list nat) (n : nat) (k : key) : key :=
  if decide (n ∈ l \/ k.1 = k.2) then k else (Sig 0 false, Sig 0 true).
Definition prune (l : list nat) (s : aig) : aig := set_ks s (imap (prune_key l) (ks s)).
Lemma prune_lookup l s n k : ks (prune l s) !! n = Some k -> exists k0, ks s !! n = Some k0 /\ k = prune_key l n k0.
Proof. cbn. rewrite list_lookup_imap. intros (k0 & E & ->)%fmap_Some. by exists k0. Qed.
Lemma prune_listed l s n : n ∈ l -> ks (prune l s) !! n = ks s !! n.
Proof.
  intros Hn. cbn. rewrite list_lookup_imap. destruct (ks s !! n) as [k|]; [|done]. cbn. unfold prune_key. by rewrite decide_True by auto.
Qed.
Lemma prune_ci l s n a : ks (prune l s) !! n = Some (a, a) -> ks s !! n = Some (a, a).
Proof.
  intros (k & E & Hk)%prune_lookup. unfold prune_key in Hk. case_decide; [congruence|injection Hk as -> Hb; discriminate Hb].
Qed.
Lemma prune_ci2 l s n a : ks s !! n = Some (a, a) -> ks (prune l s) !! n = Some (a, a).
Proof. intros E. cbn. rewrite list_lookup_imap, E. cbn. unfold prune_key. by rewrite decide_True by (right; done). Qed.
Lemma prune_size l s : size (prune l s) = size s.
Proof. unfold size. cbn. apply imap_length. Qed.

Lemma edge_gate s n c : edge (aig_fan s) n c -> fanin s n c.
Proof.
  intros (fs & E & Hc). unfold aig_fan, Clean.fanins in E. apply bind_Some in E as (l & E & [= <-]).
  case_decide as Hn; [injection E as <-; by apply elem_of_nil in Hc|]. unfold is_ci in E.
  destruct (ks s !! n) as [[a b]|] eqn:Ek; [|done]. cbn [mbind option_bind fst snd] in E.
  case_bool_decide as Hab; injection E as <-; [by apply elem_of_nil in Hc|]. exists a, b. split; [done|]. split; [done|]. split; [done|].
  cbn in Hc. rewrite !elem_of_cons, elem_of_nil in Hc. naive_solver.
Qed.
Lemma gate_edge s n c : fanin s n c -> edge (aig_fan s) n c.
Proof.
  intros (a & b & E & Hn & Hab & Hc). exists [sidx a; sidx b]. split.
  - unfold aig_fan, Clean.fanins. rewrite decide_False by done. unfold is_ci. rewrite E. cbn [mbind option_bind fst snd].
    by rewrite bool_decide_eq_false_2 by done.
  - destruct Hc as [->| ->]; [left|right; left].
Qed.
Lemma fan_key s s' n : ks s' !! n = ks s !! n -> aig_fan s' n = aig_fan s n.
Proof. intros E. unfold aig_fan, Clean.fanins, is_ci. by rewrite E. Qed.
Lemma copy_key s s' m n d : ks s' !! n = ks s !! n -> copy_node s' m n d = copy_node s m n d.
Proof. intros E. unfold copy_node, is_ci. by rewrite E. Qed.
Lemma foldM_eq {S A B} (f g : B -> A -> M S B) l b s : (forall x b s, x ∈ l -> f b x s = g b x s) -> foldM f b l s = foldM g b l s.
Proof.
  revert b s. induction l as [|x l IH]; intros b s H; [done|]. cbn [foldM]. unfold bnd. rewrite H by left.
  destruct (g b x s) as [[b' s']|]; [|done]. apply IH. intros. apply H. by right.
Qed.

Lemma topo_some s l : shape s -> aig_topo s = Some l ->
  (forall i n c, l !! i = Some n -> fanin s n c -> exists j, j < i /\ l !! j = Some c) /\
  (forall n, n ∈ 0 :: ins s \/ (exists f, f ∈ outs s /\ n = sidx f) -> n ∈ l) /\ aig_topo (prune l s) = Some l.
Proof.
  intros S H. unfold aig_topo, aig_topo_from, topo_view in *. apply bind_Some in H as ([u x] & H & [= <-]).
  destruct (fun A B => topo_run_part (aig_fan s) (aig_fan (prune x.2 s)) (0 + 2) ltac:(lia) _ _ _ _ _ _ A H B) as (Hx & Hin & A).
  { intros n c Hn (a & b & E & Hn0 & Hab & _)%edge_gate. apply elem_of_cons in Hn as [->|Hn]; [done|].
    apply elem_of_list_lookup in Hn as [k Hk]. destruct (sh_in _ S k n Hk) as [_ E']. congruence. }
  { split; cbn [fst snd]; [|intros i n c Hi; by rewrite lookup_nil in Hi].
    intros m Hm. pose proof (lookup_lt_Some _ _ _ Hm) as Hl. rewrite repeat_length in Hl. rewrite lookup_repeat_lt in Hm by done. discriminate Hm. }
  split; [intros i n c Hi Hc%gate_edge; by eapply (pi_after _ _ _ Hx)|]. split.
  - intros n [Hn|(f & Hf & ->)]; apply Hin; [by left|right]. apply elem_of_list_fmap. by exists f.
  - rewrite prune_size. cbn [ins outs prune set_ks]. rewrite A; [done|]. intros m Hm. apply fan_key. by apply prune_listed.
Qed.

Lemma cleanup_some nb s d : 0 < nb -> shape s -> is_combinational s = true -> cleanup_dangling nb s false false = Some d ->
  reachable d /\ npi d = npi s /\ npo d = npo s /\ is_combinational d = true /\ forall env l, computes s env l -> computes d env l.
Proof.
  intros Hnb S C H.
  assert (Ht : exists l, aig_topo s = Some l).
  { unfold cleanup_dangling, cleanup_m, bnd in H. destruct (clone_inputs s false (aig_init_n nb)) as [[cis d0]|]; [|done].
    unfold cleanup_impl at 1, bnd in H. destruct (lift _ d0) as [[m d1]|]; [|done].
    destruct (aig_topo s) as [l|]; [by eexists|]. discriminate H. }
  destruct Ht as [l El]. destruct (topo_some s l S El) as (Hord & Hin & Et).
  set (p := prune l s) in *.
  assert (Ec : cleanup_dangling nb p false false = Some d).
  { rewrite <- H. unfold cleanup_dangling, cleanup_m, bnd. change (clone_inputs p false) with (clone_inputs s false).
    destruct (clone_inputs s false (aig_init_n nb)) as [[cis d0]|]; [|done].
    assert (Ei : cleanup_impl p cis d0 = cleanup_impl s cis d0).
    { unfold cleanup_impl, bnd. rewrite (prune_size l s : size p = _). change (pis p) with (pis s).
      destruct (lift _ d0) as [[m d1]|]; [|done]. rewrite Et, El. cbn [lift]. apply foldM_eq.
      intros n m' d' Hn. apply copy_key. by apply prune_listed. }
    rewrite Ei. done. }
  assert (H0l : 0 ∈ l) by (apply Hin; left; left).
  assert (W : network p).
  { apply shape_network.
    - pose proof (prune_size l s : size p = size s) as Hsz. split.
      + apply prune_ci2, S.
      + intros k n Hk. destruct (sh_in _ S k n Hk) as [? ?]. split; [done|]. by apply prune_ci2.
      + intros n a E%prune_ci. by apply (sh_ci _ S n a).
      + intros n m (a & b & E & Hn & Hab & Hm). rewrite Hsz. apply prune_lookup in E as ([a0 b0] & E & Hk). unfold prune_key in Hk.
        case_decide as Hd; injection Hk as -> ->.
        * apply (sh_gate _ S n). by exists a0, b0.
        * pose proof (lookup_lt_Some _ _ _ (sh_const _ S)). unfold size in *. destruct Hm as [->| ->]; cbn; lia.
      + eapply Forall_impl; [apply S|]. intros f. unfold valid. by rewrite Hsz.
      + apply S. + apply S. + rewrite Hsz. apply S.
    - exists (fun n => match list_find (eq n) l with Some (i, _) => i | None => length l end).
      intros n m (a & b & E & Hn & Hab & Hm). pose proof E as E'. apply prune_lookup in E' as ([a0 b0] & E0 & Hk).
      destruct (list_find (eq n) l) as [[i x]|] eqn:Ef.
      + apply list_find_Some in Ef as (Ei & <- & _). assert (Hnl : n ∈ l) by (by eapply elem_of_list_lookup_2).
        unfold p in E. rewrite prune_listed in E by done.
        destruct (Hord i n m Ei) as (j & Hj & Ej); [by exists a, b|].
        destruct (list_find_elem_of (eq m) l m (elem_of_list_lookup_2 _ _ _ Ej) eq_refl) as [[j' y] Ef']. rewrite Ef'.
        apply list_find_Some in Ef' as (_ & _ & Hmin). destruct (decide (j < j')) as [Hlt|]; [|lia]. by destruct (Hmin j m Ej Hlt).
      + assert (Hnl : n ∉ l) by (intros Hx; destruct (list_find_elem_of (eq n) l n Hx eq_refl) as [? Ex]; congruence).
        unfold prune_key in Hk. rewrite decide_False in Hk.
        2: { intros [?|Heq]; [done|]. cbn in Heq. subst b0. apply Hab. unfold p in E. rewrite (prune_ci2 l s n a0 E0) in E. congruence. }
        injection Hk as -> ->. assert (m = 0) as -> by (destruct Hm as [->| ->]; done).
        destruct (list_find_elem_of (eq 0) l 0 H0l eq_refl) as [[j y] Ef']. rewrite Ef'. apply list_find_Some in Ef' as (Ej & _).
        by apply lookup_lt_Some in Ej. }
  destruct (C20_cleanup_preserves nb p Hnb W) as (d' & Ed & Hr & Hi & Ho & Hc & Hcomp); [exact C|].
  rewrite Ec in Ed. injection Ed as <-. split; [done|]. split; [exact Hi|]. split; [exact Ho|]. split; [done|].
  intros env ls (v & V & ->). apply Hcomp.
  set (v' := fun n => match ks s !! n with Some (a, b) => if decide (n ∈ l \/ a = b) then v n else false | None => v n end).
  assert (Hl : forall n, n ∈ l -> v' n = v n).
  { intros n Hn. unfold v'. destruct (ks s !! n) as [[a b]|]; [|done]. by rewrite decide_True by auto. }
  exists v'. split.
  - split.
    + rewrite Hl by done. apply V.
    + intros k n Hk. rewrite Hl by (apply Hin; left; right; by eapply elem_of_list_lookup_2). by apply (val_input _ _ _ V).
    + intros n a b E Hn Hab. pose proof E as E'. apply prune_lookup in E' as ([a0 b0] & E0 & Hk).
      destruct (decide (n ∈ l)) as [Hnl|Hnl].
      * unfold p in E. rewrite prune_listed in E by done. rewrite Hl by done. rewrite (val_gate _ _ _ V n a b E Hn Hab).
        assert (Hc2 : forall c, c = a \/ c = b -> sidx c ∈ l).
        { intros c Hc2. apply elem_of_list_lookup in Hnl as [i0 Hi0]. destruct (Hord i0 n (sidx c) Hi0) as (j & _ & Ej); [|by eapply elem_of_list_lookup_2].
          exists a, b. split; [done|]. split; [done|]. split; [done|]. destruct Hc2 as [->| ->]; auto. }
        unfold sval. rewrite !Hl; auto.
      * unfold prune_key in Hk. destruct (decide (n ∈ l \/ (a0, b0).1 = (a0, b0).2)) as [[?|Heq]|Hd]; [done| |].
        { cbn in Heq. subst b0. congruence. }
        injection Hk as -> ->. unfold v' at 1. rewrite E0, decide_False by done. unfold sval. cbn. rewrite Hl by done. by rewrite (val_const _ _ _ V).
  - unfold pos. change (npo p) with (npo s). change (outs p) with (outs s). apply map_ext_in. intros f Hf. apply elem_of_list_In, take_elem in Hf.
    unfold sval. rewrite Hl; [done|]. apply Hin. right. by exists f.
Qed.
