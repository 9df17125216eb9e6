From stdpp Require Import sorting.
From Verif Require Import Base Aig AigSem AigHash AigProofs AigApi NetProofs Cnf CnfProofs Choice ChoiceSat ChoiceSatProofs PropChoiceSat
  ChoiceCompute ChoiceComputeProofs ChoiceClasses ChoiceClassesProofs ChoiceRefineProofs ChoiceSimProofs.

(* ---- the fanout cone ---- *)
Section collect.
Context (s : aig) (P : swept s) (gs : list nat) (Eg : gates s = Some gs) (c : classes) (G : grouped (size s) c).

Lemma gate_of g : g ∈ gs -> is_gate s g.
Proof using All.
  destruct (gates_spec s (sp_net _ P) (sp_live _ P)) as (gs' & E' & _ & Hg). rewrite Eg in E'. injection E' as <-. apply Hg.
Qed.
Lemma fanouts_later n g : g ∈ fanouts s gs n -> n < g /\ g < size s.
Proof using All.
  intros [Hg%elem_of_list_In Hb]%elem_of_list_In%filter_In. apply gate_of in Hg. pose proof Hg as (a & b & Ek & _). rewrite Ek in Hb. cbn [fst snd] in Hb.
  destruct (gate_fanins s P g a b Ek Hg) as [La Lb]. pose proof (lookup_lt_Some _ _ _ Ek). split; [|done].
  apply orb_true_iff in Hb as [H1%bool_decide_eq_true|H1%bool_decide_eq_true]; lia.
Qed.
Definition roots_ok (l : list nat) : Prop := NoDup l /\ forall x, x ∈ l -> c_reprs c !! x = Some x.

Lemma collect_rec_spec fuel n d : size s < n + fuel -> n < size s -> roots_ok d.2 ->
  exists d', collect_rec s fuel gs c n d = Some d' /\ roots_ok d'.2 /\ d.2 ⊆ d'.2 /\
    (n ∉ d.1 -> forall r, c_reprs c !! n = Some r -> r <> n -> r ∈ d'.2).
Proof using All.
  revert n d. induction fuel as [|fuel IH]; intros n d Hf Hn Hok; [lia|]. cbn [collect_rec].
  case_decide as Hv; [exists d; done|].
  destruct (each_total (collect_rec s fuel gs c) (fun _ d' => roots_ok d'.2 /\ d.2 ⊆ d'.2) (fanouts s gs n) (n :: d.1, d.2)) as (d1 & E & Hok1 & Hs1).
  - done.
  - intros p g q x El [H1 H2]. assert (Hg : g ∈ fanouts s gs n) by (rewrite El; apply elem_of_app; right; apply elem_of_list_here).
    apply fanouts_later in Hg as [L1 L2]. destruct (IH g x) as (y & Ey & Hy1 & Hy2 & _); [lia|done|done|]. exists y. split; [done|]. split; [done|set_solver].
  - rewrite E. cbn [mbind option_bind]. destruct (lookup_lt_is_Some_2 (c_reprs c) n) as [r Er]; [by rewrite (gr_len _ _ G)|].
    rewrite Er. cbn [mbind option_bind]. case_decide as Hr.
    { exists d1. split; [done|]. split; [done|]. split; [done|]. intros _ r' [= <-]. done. }
    case_decide as Hi.
    { exists d1. split; [done|]. split; [done|]. split; [done|]. intros _ r' [= <-]. done. }
    exists (d1.1, d1.2 ++ [r]). split; [done|]. cbn [fst snd]. split; [|split].
    + split.
      * apply NoDup_app. split; [apply Hok1|]. split; [|apply NoDup_singleton]. by intros x Hx ->%elem_of_list_singleton.
      * intros x [Hx|Hx%elem_of_list_singleton]%elem_of_app; [by apply Hok1|]. subst x. by apply (gr_repr _ _ G n).
    + set_solver.
    + intros _ r' [= <-] _. set_solver.
Qed.
Lemma collect_spec r n : n < size s -> n <> 0 -> c_reprs c !! n = Some r -> r <> n ->
  exists roots, collect_tfo_cands s gs c r n = Some roots /\ roots_ok roots /\ r ∈ roots.
Proof using All.
  intros Hn H0 Er Hr. unfold collect_tfo_cands.
  destruct (collect_rec_spec (S (size s)) n ([0], [])) as (d & E & H1 & _ & H2); [lia|done|by split; [constructor|intros x Hx%elem_of_nil]|].
  rewrite E. cbn [mbind option_bind].
  assert (Hrs : r < size s). { apply (gr_repr _ _ G) in Er as [_ Er]. apply lookup_lt_Some in Er. by rewrite (gr_len _ _ G) in Er. }
  destruct (collect_rec_spec (S (size s)) r d) as (d' & E' & H1' & Hs & _); [lia|done|done|]. rewrite E'. cbn [mbind option_bind].
  eexists. split; [reflexivity|]. pose proof (merge_sort_Permutation le d'.2) as Hp. split; [split|].
  - rewrite Hp. apply H1'.
  - intros x. rewrite Hp. apply H1'.
  - rewrite Hp. apply Hs. apply (H2 ltac:(set_solver) r); done.
Qed.
End collect.

(* ---- marks ---- *)
Section marks.
Context (s : aig) (P : swept s).

(* the mark of gate x fits those of its fanins *)
Definition fits (vis : list nat) (mb : list bool) (x : nat) : Prop :=
  forall a b, ks s !! x = Some (a, b) -> a <> b -> sidx a ∈ vis /\ sidx b ∈ vis /\ mark_and (a, b) mb = mb !! x.
Record visits (vis : list nat) (mb : list bool) (vis' : list nat) (mb' : list bool) (Q : nat -> Prop) : Prop := {
  vi_len : length mb' = length mb;
  vi_vis : vis ⊆ vis';
  vi_mark : forall x, x ∈ vis -> mb' !! x = mb !! x;
  vi_new : forall x, x ∈ vis' -> x ∈ vis \/ Q x
}.
Lemma fits_mono vis mb vis' mb' x : fits vis mb x -> x ∈ vis -> vis ⊆ vis' -> (forall y, y ∈ vis -> mb' !! y = mb !! y) -> fits vis' mb' x.
Proof using All.
  intros H Hx Hs Hm a b E Hab. destruct (H a b E Hab) as (Ha & Hb & Em). split; [by apply Hs|]. split; [by apply Hs|].
  unfold mark_and in *. cbn [fst snd] in *. by rewrite !Hm.
Qed.
Lemma visits_refl vis mb Q : visits vis mb vis mb Q.
Proof. split; try done. intros x Hx. by left. Qed.
Lemma visits_trans v1 m1 v2 m2 v3 m3 Q1 Q2 (Q : nat -> Prop) : visits v1 m1 v2 m2 Q1 -> visits v2 m2 v3 m3 Q2 ->
  (forall x, x ∈ v2 -> Q1 x -> Q x) -> (forall x, Q2 x -> Q x) -> visits v1 m1 v3 m3 Q.
Proof.
  intros [L1 S1 M1 N1] [L2 S2 M2 N2] H1 H2. split.
  - by rewrite L2.
  - set_solver.
  - intros x Hx. rewrite M2 by (by apply S1). by apply M1.
  - intros x [Hx|Hx]%N2; [|by right; apply H2]. destruct (N1 x Hx) as [?|?]; [by left|right; by apply H1].
Qed.

Lemma node_cases n : n < size s -> n <> 0 -> (n ∈ ins s /\ is_ci s n = Some true) \/
  (exists a b, ks s !! n = Some (a, b) /\ is_gate s n /\ is_ci s n = Some false /\ sidx a < n /\ sidx b < n).
Proof using P.
  intros Hn H0. destruct (lookup_lt_is_Some_2 (ks s) n) as [[a b] E]; [done|]. unfold is_ci. rewrite E. cbn. destruct (decide (a = b)) as [->|Hab].
  - left. destruct (net_ci _ (sp_net _ P) n b E) as [|Hi]; [done|]. split; [done|]. f_equal. by apply bool_decide_eq_true.
  - right. assert (Hg : is_gate s n) by (by exists a, b). destruct (gate_fanins s P n a b E Hg) as [La Lb]. exists a, b. split; [done|]. split; [done|].
    split; [|done]. f_equal. by apply bool_decide_eq_false.
Qed.

Lemma solved_rec_spec val fuel n vis mb : n < fuel -> n < size s -> 0 ∈ vis -> length mb = size s -> (forall x, x ∈ ins s -> is_Some (val x)) ->
  exists vis' mb', solved_rec s fuel val n (vis, mb) = Some (vis', mb') /\
    visits vis mb vis' mb' (fun x => x <= n /\ fits vis' mb' x /\ (x ∈ ins s -> mb' !! x = val x)) /\ n ∈ vis'.
Proof using P.
  intros Hf Hn H0 Hl Hval. revert n vis mb Hf Hn H0 Hl. induction fuel as [|fuel IH]; intros n vis mb Hf Hn H0 Hl; [lia|]. cbn [solved_rec fst snd].
  case_decide as Hv; [exists vis, mb; split; [done|]; split; [apply visits_refl|done]|].
  assert (Hn0 : n <> 0) by (by intros ->). destruct (node_cases n Hn Hn0) as [[Hi ->]|(a & b & Ek & Hg & -> & La & Lb)]; cbn [mbind option_bind].
  - destruct (Hval n Hi) as [v Ev]. rewrite Ev. cbn [mbind option_bind]. exists (n :: vis), (<[n := v]> mb). split; [done|]. split; [|apply elem_of_list_here].
    split.
    + apply insert_length.
    + set_solver.
    + intros x Hx. apply list_lookup_insert_ne. by intros ->.
    + intros x [->|Hx]%elem_of_cons; [right|by left]. split; [done|]. split.
      * intros a b E Hab. exfalso. by apply (swept_not_gate s P n Hi); exists a, b.
      * intros _. rewrite list_lookup_insert by (rewrite Hl; done). done.
  - rewrite Ek. cbn [mbind option_bind fst snd].
    destruct (IH (sidx a) (n :: vis) mb) as (v1 & m1 & E1 & V1 & I1); [lia|lia|set_solver|done|]. rewrite E1. cbn [mbind option_bind].
    pose proof (vi_len _ _ _ _ _ V1) as L1. pose proof (vi_vis _ _ _ _ _ V1) as S1.
    destruct (IH (sidx b) v1 m1) as (v2 & m2 & E2 & V2 & I2); [lia|lia|set_solver|lia|]. rewrite E2. cbn [mbind option_bind fst snd].
    pose proof (vi_len _ _ _ _ _ V2) as L2. pose proof (vi_vis _ _ _ _ _ V2) as S2.
    unfold mark_and. cbn [fst snd]. destruct (lookup_lt_is_Some_2 m2 (sidx a)) as [xa Ea]; [lia|]. destruct (lookup_lt_is_Some_2 m2 (sidx b)) as [xb Eb]; [lia|].
    rewrite Ea, Eb. cbn [mbind option_bind]. set (y := xorb xa (scompl a) && xorb xb (scompl b)). exists v2, (<[n := y]> m2). split; [done|].
    assert (Hne : forall x, x <> n -> <[n := y]> m2 !! x = m2 !! x) by (intros x Hx; by rewrite list_lookup_insert_ne by done).
    assert (Fold : forall x, x < n -> fits v2 m2 x -> fits v2 (<[n := y]> m2) x).
    { intros x Hx Fx c d E Hcd. destruct (Fx c d E Hcd) as (Hc & Hd & Em). split; [done|]. split; [done|].
      assert (sidx c < n /\ sidx d < n). { destruct (decide (x = 0)) as [->|Hx0]; [rewrite (net_const _ (sp_net _ P)) in E; by injection E as <- <-|].
        assert (Hgx : is_gate s x) by (by exists c, d). destruct (gate_fanins s P x c d E Hgx). lia. }
      unfold mark_and in *. cbn [fst snd] in *. rewrite !Hne by lia. done. }
    split; [split|].
    + rewrite insert_length. lia.
    + set_solver.
    + intros x Hx. rewrite Hne by (by intros ->). rewrite (vi_mark _ _ _ _ _ V2) by (apply S1; set_solver). apply (vi_mark _ _ _ _ _ V1). set_solver.
    + intros x Hx. destruct (decide (x = n)) as [->|Hxn].
      { right. split; [done|]. split.
        - intros c d E Hcd. rewrite Ek in E. injection E as <- <-. split; [by apply S2|]. split; [done|]. unfold mark_and. cbn [fst snd].
          rewrite !Hne by lia. rewrite Ea, Eb. cbn [mbind option_bind]. symmetry. apply list_lookup_insert. lia.
        - intros Hi. exfalso. by apply (swept_not_gate s P n Hi). }
      destruct (vi_new _ _ _ _ _ V2 x Hx) as [Hx1|(Hle & Fx & Hci)].
      * destruct (vi_new _ _ _ _ _ V1 x Hx1) as [Hx0|(Hle & Fx & Hci)]; [left; set_solver|]. right. split; [lia|]. split.
        -- apply Fold; [lia|]. apply (fits_mono v1 m1); [done|done|done|apply V2].
        -- intros Hi. rewrite Hne by done. rewrite (vi_mark _ _ _ _ _ V2) by done. by apply Hci.
      * right. split; [lia|]. split; [apply Fold; [lia|done]|]. intros Hi. rewrite Hne by done. by apply Hci.
    + apply S2, S1. set_solver.
Qed.

Lemma other_rec_spec rnd both fuel n vis mb j : n < fuel -> n < size s -> 0 ∈ vis -> length mb = size s ->
  exists vis' mb' j', other_rec rnd both s fuel n (vis, mb, j) = Some (vis', mb', j') /\
    visits vis mb vis' mb' (fun x => x <= n /\ (both = true -> fits vis' mb' x)) /\ n ∈ vis'.
Proof using P.
  revert n vis mb j. induction fuel as [|fuel IH]; intros n vis mb j Hf Hn H0 Hl; [lia|]. cbn [other_rec fst snd].
  case_decide as Hv; [exists vis, mb, j; split; [done|]; split; [apply visits_refl|done]|].
  assert (Hn0 : n <> 0) by (by intros ->). destruct (node_cases n Hn Hn0) as [[Hi ->]|(a & b & Ek & Hg & -> & La & Lb)]; cbn [mbind option_bind].
  - exists (n :: vis), (<[n := N.odd (rnd j)]> mb), (S j). split; [done|]. split; [|apply elem_of_list_here].
    split.
    + apply insert_length.
    + set_solver.
    + intros x Hx. apply list_lookup_insert_ne. by intros ->.
    + intros x [->|Hx]%elem_of_cons; [right|by left]. split; [done|]. intros _ a b E Hab. exfalso. by apply (swept_not_gate s P n Hi); exists a, b.
  - rewrite Ek. cbn [mbind option_bind fst snd].
    destruct (IH (sidx a) (n :: vis) mb j) as (v1 & m1 & j1 & E1 & V1 & I1); [lia|lia|set_solver|done|]. rewrite E1. cbn [mbind option_bind].
    pose proof (vi_len _ _ _ _ _ V1) as L1. pose proof (vi_vis _ _ _ _ _ V1) as S1.
    set (z := if both then sidx b else sidx a). assert (Hz : z < n) by (unfold z; destruct both; lia).
    destruct (IH z v1 m1 j1) as (v2 & m2 & j2 & E2 & V2 & I2); [lia|lia|set_solver|lia|]. rewrite E2. cbn [mbind option_bind fst snd].
    pose proof (vi_len _ _ _ _ _ V2) as L2. pose proof (vi_vis _ _ _ _ _ V2) as S2.
    unfold mark_and. cbn [fst snd]. destruct (lookup_lt_is_Some_2 m2 (sidx a)) as [xa Ea]; [lia|]. destruct (lookup_lt_is_Some_2 m2 (sidx b)) as [xb Eb]; [lia|].
    rewrite Ea, Eb. cbn [mbind option_bind]. set (y := xorb xa (scompl a) && xorb xb (scompl b)). exists v2, (<[n := y]> m2), j2. split; [done|].
    assert (Hne : forall x, x <> n -> <[n := y]> m2 !! x = m2 !! x) by (intros x Hx; by rewrite list_lookup_insert_ne by done).
    assert (Fold : forall x, x < n -> fits v2 m2 x -> fits v2 (<[n := y]> m2) x).
    { intros x Hx Fx c d E Hcd. destruct (Fx c d E Hcd) as (Hc & Hd & Em). split; [done|]. split; [done|].
      assert (sidx c < n /\ sidx d < n). { destruct (decide (x = 0)) as [->|Hx0]; [rewrite (net_const _ (sp_net _ P)) in E; by injection E as <- <-|].
        assert (Hgx : is_gate s x) by (by exists c, d). destruct (gate_fanins s P x c d E Hgx). lia. }
      unfold mark_and in *. cbn [fst snd] in *. rewrite !Hne by lia. done. }
    split; [split|].
    + rewrite insert_length. lia.
    + set_solver.
    + intros x Hx. rewrite Hne by (by intros ->). rewrite (vi_mark _ _ _ _ _ V2) by (apply S1; set_solver). apply (vi_mark _ _ _ _ _ V1). set_solver.
    + intros x Hx. destruct (decide (x = n)) as [->|Hxn].
      { right. split; [done|]. intros Hb c d E Hcd. rewrite Ek in E. injection E as <- <-. split; [by apply S2|]. split; [unfold z in I2; by rewrite Hb in I2|].
        unfold mark_and. cbn [fst snd]. rewrite !Hne by lia. rewrite Ea, Eb. cbn [mbind option_bind]. symmetry. apply list_lookup_insert. lia. }
      destruct (vi_new _ _ _ _ _ V2 x Hx) as [Hx1|(Hle & Fx)].
      * destruct (vi_new _ _ _ _ _ V1 x Hx1) as [Hx0|(Hle & Fx)]; [left; set_solver|]. right. split; [lia|]. intros Hb.
        apply Fold; [lia|]. apply (fits_mono v1 m1); [by apply Fx|done|done|apply V2].
      * right. split; [lia|]. intros Hb. apply Fold; [lia|by apply Fx].
    + apply S2, S1. set_solver.
Qed.

(* marks that fit are the values of the nodes for some input *)
Lemma fits_value vis mb v env : valuation s env v -> length mb = size s -> mb !! 0 = Some false -> (forall x, x ∈ vis -> x < size s) ->
  (forall x, x ∈ vis -> x <> 0 -> fits vis mb x) -> (forall k, S k ∈ vis -> S k ∈ ins s -> mb !! S k = Some (env k)) ->
  forall x, x ∈ vis -> mb !! x = Some (v x).
Proof using P.
  intros V Hl H0 Hs Hf Hi x. induction (lt_wf x) as [x _ IH]. intros Hx. destruct (decide (x = 0)) as [->|Hx0]; [by rewrite H0, (val_const _ _ _ V)|].
  destruct (node_cases x (Hs x Hx) Hx0) as [[Hin _]|(a & b & Ek & Hg & _ & La & Lb)].
  - pose proof Hin as [k Hk]%elem_of_list_lookup. rewrite (val_input _ _ _ V k x Hk). pose proof (swept_in s P _ _ Hk) as ->. by apply Hi.
  - pose proof Hg as (a' & b' & Ek' & _ & Hab). rewrite Ek in Ek'. injection Ek' as <- <-.
    destruct (Hf x Hx Hx0 a b Ek Hab) as (Ha & Hb & Em). rewrite <- Em. unfold mark_and. cbn [fst snd]. rewrite !IH by done. cbn [mbind option_bind].
    by rewrite (val_gate _ _ _ V x a b Ek Hx0 Hab).
Qed.

Definition mkey (mb : list bool) (n : nat) : bool := xorb (default false (mb !! n)) (default false (ph s !! n)).
Lemma equal_cex_spec mb n m : length mb = size s -> n < size s -> m < size s -> equal_cex s mb n m = Some (bool_decide (mkey mb n = mkey mb m)).
Proof using P.
  intros Hl Hn Hm. unfold equal_cex, mkey. destruct (swept_ph s P n Hn) as [p Ep]. destruct (swept_ph s P m Hm) as [q Eq].
  destruct (lookup_lt_is_Some_2 mb n) as [x Ex]; [by rewrite Hl|]. destruct (lookup_lt_is_Some_2 mb m) as [y Ey]; [by rewrite Hl|].
  rewrite Ep, Eq, Ex, Ey. cbn. by destruct p, q, x, y.
Qed.
Lemma fits_alike vis mb n m : length mb = size s -> mb !! 0 = Some false -> (forall x, x ∈ vis -> x < size s) ->
  (forall x, x ∈ vis -> x <> 0 -> fits vis mb x) -> n ∈ vis -> m ∈ vis -> alike s n m -> mkey mb n = mkey mb m.
Proof using P.
  intros Hl H0 Hs Hf Hn Hm Ha. set (env := fun k => default false (mb !! S k)). destruct (net_valuation s env (sp_net _ P)) as [v V].
  assert (K : forall x, x ∈ vis -> mb !! x = Some (v x)).
  { apply (fits_value vis mb v env V Hl H0 Hs Hf). intros k Hk _. unfold env. destruct (lookup_lt_is_Some_2 mb (S k)) as [x ->]; [rewrite Hl; by apply Hs|]. done. }
  unfold mkey. rewrite !K by done. destruct (swept_ph s P n (Hs n Hn)) as [p Ep]. destruct (swept_ph s P m (Hs m Hm)) as [q Eq]. rewrite Ep, Eq. cbn.
  rewrite (alike_phase s n m p q P (Hs n Hn) (Hs m Hm) Ep Eq Ha env v V). by destruct (v m), p, q.
Qed.
End marks.

(* ---- refinement with a counterexample ---- *)
Section resim.
Context (rnd : nat -> N) (both : bool) (s : aig) (P : swept s).

Record marked (vis0 : list nat) (mb0 : list bool) (vis : list nat) (mb : list bool) : Prop := {
  ma_len : length mb = size s;
  ma_vis : vis0 ⊆ vis;
  ma_mark : forall x, x ∈ vis0 -> mb !! x = mb0 !! x;
  ma_lt : forall x, x ∈ vis -> x < size s;
  ma_fits : both = true -> forall x, x ∈ vis -> x <> 0 -> fits s vis mb x
}.

Lemma other_all vis0 mb0 vis mb j l : 0 ∈ vis0 -> marked vis0 mb0 vis mb -> (forall x, x ∈ l -> x < size s) ->
  exists vis' mb' j', each (other_rec rnd both s (S (size s))) l (vis, mb, j) = Some (vis', mb', j') /\ marked vis0 mb0 vis' mb' /\ l ⊆ vis'.
Proof using P.
  intros H0 M Hl.
  destruct (each_total (other_rec rnd both s (S (size s))) (fun p d => marked vis0 mb0 d.1.1 d.1.2 /\ p ⊆ d.1.1) l (vis, mb, j)) as ([[v m] k] & E & M' & Hs).
  - cbn. split; [done|set_solver].
  - intros p x q [[v m] k] El [M1 Hs]. cbn [fst snd] in *.
    assert (Hx : x < size s) by (apply Hl; rewrite El; set_solver).
    destruct (other_rec_spec s P rnd both (S (size s)) x v m k) as (v' & m' & k' & E & V & Hi); [lia|done|by apply (ma_vis _ _ _ _ M1)|apply M1|].
    exists (v', m', k'). split; [done|]. cbn [fst snd]. split.
    + split.
      * rewrite (vi_len _ _ _ _ _ V). apply M1.
      * intros y Hy. apply (vi_vis _ _ _ _ _ V). by apply (ma_vis _ _ _ _ M1).
      * intros y Hy. rewrite (vi_mark _ _ _ _ _ V) by (by apply (ma_vis _ _ _ _ M1)). by apply (ma_mark _ _ _ _ M1).
      * intros y Hy. destruct (vi_new _ _ _ _ _ V y Hy) as [Hy'|[Hle _]]; [by apply (ma_lt _ _ _ _ M1)|lia].
      * intros Hb y Hy Hy0. destruct (vi_new _ _ _ _ _ V y Hy) as [Hy'|[_ Hf]]; [|by apply Hf].
        apply (fits_mono s P v m); [by apply (ma_fits _ _ _ _ M1)|done|apply V|apply V].
    + intros y [Hy|Hy%elem_of_list_singleton]%elem_of_app; [apply (vi_vis _ _ _ _ _ V); by apply Hs|by subst y].
  - exists v, m, k. done.
Qed.

Lemma resim_loop roots c0 vis0 mb0 j0 r n : grouped (size s) c0 -> roots_ok c0 roots -> r ∈ roots -> c_reprs c0 !! n = Some r ->
  marked vis0 mb0 vis0 mb0 -> 0 ∈ vis0 -> mb0 !! 0 = Some false -> n ∈ vis0 -> r ∈ vis0 -> mkey s mb0 r <> mkey s mb0 n ->
  exists vis mb j c ret, each (resim_class rnd both s) roots (vis0, mb0, j0, c0, 0) = Some (vis, mb, j, c, ret) /\
    grouped (size s) c /\ length mb = size s /\ mb !! 0 = Some false /\ 0 < ret /\ (both = true -> together s c0 -> together s c).
Proof using P.
  intros G0 [Hnd Hroot] Hr Hn M0 H0 Hm0 Hvn Hvr Hkey.
  destruct (each_total (resim_class rnd both s) (fun p x => let '(vis, mb, j, c, ret) := x in grouped (size s) c /\ marked vis0 mb0 vis mb /\
      (forall x, x ∈ roots -> x ∉ p -> forall y, c_reprs c !! y = Some x <-> c_reprs c0 !! y = Some x) /\
      (r ∈ p -> 0 < ret) /\ (both = true -> together s c0 -> together s c)) roots (vis0, mb0, j0, c0, 0)) as ([[[[vis mb] j] c] ret] & E & G & M & _ & Hret & Ht).
  - split; [done|]. split; [done|]. split; [done|]. split; [by intros ?%elem_of_nil|done].
  - intros p a q [[[[vis mb] j] c] ret] El (G & M & Hu & Hret & Ht).
    assert (Ha : a ∈ roots) by (rewrite El; set_solver).
    assert (Hap : a ∉ p). { rewrite El in Hnd. apply NoDup_app in Hnd as (_ & Hnd & _). intros Hi. apply (Hnd a Hi). set_solver. }
    assert (Ea : c_reprs c !! a = Some a) by (apply (Hu a Ha Hap); by apply Hroot).
    assert (Has : a < size s). { apply lookup_lt_Some in Ea. by rewrite (gr_len _ _ G) in Ea. }
    unfold resim_class. destruct (lookup_lt_is_Some_2 (c_ids c) a) as [l Ecl]; [by rewrite (gr_ids _ _ G)|]. rewrite Ecl. cbn [mbind option_bind].
    assert (Hmem : forall x, x ∈ l <-> c_reprs c !! x = Some a) by (intros x; by apply (class_elem (size s))).
    destruct (other_all vis0 mb0 vis mb j l H0 M) as (v & m & k & Eo & Mo & Hlv).
    { intros x Hx%Hmem. apply lookup_lt_Some in Hx. by rewrite (gr_len _ _ G) in Hx. }
    rewrite Eo. cbn [mbind option_bind fst snd].
    destruct (refine_one_class_spec (mkey s m) (size s) (equal_cex s m) false (S (length l)) c a l G Ea Ecl) as (cnt & c' & Er & F); [lia| |].
    { intros x y Hx Hy. apply equal_cex_spec; [done|apply Mo|done|done]. }
    rewrite Er. cbn [mbind option_bind]. exists (v, m, k, c', ret + cnt). split; [done|]. split; [apply F|]. split; [done|]. split; [|split].
    + intros x Hx Hxp y. assert (Hxa : x <> a) by (intros ->; set_solver). assert (Hxp' : x ∉ p) by set_solver. rewrite <- (Hu x Hx Hxp' y). split.
      * intros E. destruct (decide (c_reprs c !! y = Some a)) as [Ey|Ey]; [|by rewrite <- (rf_other _ _ _ _ _ _ F y Ey)].
        pose proof (rf_new _ _ _ _ _ _ F y x Ey E) as Hc. exfalso. apply Hxa.
        assert (c_reprs c !! x = Some x) as H by (apply (Hu x Hx Hxp'); by apply Hroot). rewrite H in Hc. by injection Hc.
      * intros E. rewrite (rf_other _ _ _ _ _ _ F y); [done|]. rewrite E. by intros [= ->].
    + intros [Hp|Hp%elem_of_list_singleton]%elem_of_app; [specialize (Hret Hp); lia|]. subst a.
      destruct (rf_diff _ _ _ _ _ _ F n) as (x & _ & _ & Hc); [by apply (Hu r Ha Hap)| |lia].
      unfold mkey in *. rewrite !(ma_mark _ _ _ _ Mo) by done. done.
    + intros Hb T0. specialize (Ht Hb T0). intros x y Hx Hy Hal. pose proof (Ht x y Hx Hy Hal) as E.
      destruct (decide (c_reprs c !! x = Some a)) as [Ex|Ex].
      * apply (rf_keep _ _ _ _ _ _ F); [|done].
        apply (fits_alike s P v m x y); [apply Mo| |apply Mo|by apply Mo|apply Hlv; by apply Hmem|apply Hlv, Hmem; by rewrite <- E|done].
        rewrite (ma_mark _ _ _ _ Mo 0 H0). done.
      * rewrite !(rf_other _ _ _ _ _ _ F); [done| |done]. by rewrite <- E.
  - exists vis, mb, j, c, ret. split; [done|]. split; [done|]. split; [apply M|]. split; [by rewrite (ma_mark _ _ _ _ M 0 H0)|]. split; [by apply Hret|done].
Qed.

(* a counterexample that tells n from r refines the classes *)
Lemma resimulate_spec gs val c mb j r n v env pn pr : gates s = Some gs -> grouped (size s) c -> length mb = size s -> mb !! 0 = Some false ->
  n < size s -> n <> 0 -> c_reprs c !! n = Some r -> r <> n -> valuation s env v -> (forall k, S k ∈ ins s -> val (S k) = Some (env k)) ->
  ph s !! n = Some pn -> ph s !! r = Some pr -> xorb (v n) pn <> xorb (v r) pr ->
  exists c' mb' j', resimulate rnd both s gs val r n c mb j = Some (c', mb', j') /\ grouped (size s) c' /\ length mb' = size s /\ mb' !! 0 = Some false /\
    (both = true -> together s c -> together s c').
Proof using P.
  intros Eg G Hl Hm0 Hn H0 Er Hr V Hval Epn Epr Hd. unfold resimulate.
  assert (Hrs : r < size s). { apply (gr_repr _ _ G) in Er as [_ H]. apply lookup_lt_Some in H. by rewrite (gr_len _ _ G) in H. }
  destruct (collect_spec s P gs Eg c G r n Hn H0 Er Hr) as (roots & -> & Hok & Hroot). cbn [mbind option_bind].
  assert (Hin : forall x, x ∈ ins s -> exists k, x = S k). { intros x [k Hk]%elem_of_list_lookup. exists k. by apply (swept_in s P). }
  assert (Hval' : forall x, x ∈ ins s -> is_Some (val x)). { intros x Hx. destruct (Hin x Hx) as [k ->]. rewrite (Hval k Hx). by eexists. }
  destruct (solved_rec_spec s P val (S (size s)) n [0] mb) as (v1 & m1 & E1 & V1 & I1); [lia|done|set_solver|done|done|]. rewrite E1. cbn [mbind option_bind].
  pose proof (vi_len _ _ _ _ _ V1) as L1. pose proof (vi_vis _ _ _ _ _ V1) as S1.
  destruct (solved_rec_spec s P val (S (size s)) r v1 m1) as (v2 & m2 & E2 & V2 & I2); [lia|done|set_solver|lia|done|]. rewrite E2. cbn [mbind option_bind].
  pose proof (vi_len _ _ _ _ _ V2) as L2. pose proof (vi_vis _ _ _ _ _ V2) as S2.
  assert (Hm2 : m2 !! 0 = Some false). { rewrite (vi_mark _ _ _ _ _ V2) by set_solver. rewrite (vi_mark _ _ _ _ _ V1) by set_solver. done. }
  assert (K : forall x, x ∈ v2 -> x = 0 \/ (x < size s /\ fits s v2 m2 x /\ (x ∈ ins s -> m2 !! x = val x))).
  { intros x Hx. destruct (vi_new _ _ _ _ _ V2 x Hx) as [Hx1|(Hle & Hf & Hc)]; [|right; split; [lia|done]].
    destruct (vi_new _ _ _ _ _ V1 x Hx1) as [Hx0|(Hle & Hf & Hc)]; [left; set_solver|]. right. split; [lia|]. split.
    - apply (fits_mono s P v1 m1); [done|done|done|apply V2].
    - intros Hi. rewrite (vi_mark _ _ _ _ _ V2) by done. by apply Hc. }
  assert (Hlt2 : forall x, x ∈ v2 -> x < size s). { intros x Hx. destruct (K x Hx) as [->|[? _]]; [apply net_size, P|done]. }
  assert (Hf2 : forall x, x ∈ v2 -> x <> 0 -> fits s v2 m2 x). { intros x Hx Hx0. by destruct (K x Hx) as [?|(_ & ? & _)]. }
  assert (Hmv : forall x, x ∈ v2 -> m2 !! x = Some (v x)).
  { apply (fits_value s P v2 m2 v env V); [lia|done|done|done|]. intros k Hk Hi. destruct (K _ Hk) as [?|(_ & _ & Hc)]; [done|]. rewrite (Hc Hi). by apply Hval. }
  assert (Hnv : n ∈ v2) by (by apply S2).
  destruct (resim_loop roots c v2 m2 j r n G Hok Hroot Er) as (vis & mb' & j' & c' & ret & E & G' & L' & M' & Hret & Ht); [|set_solver|done|done|done| |].
  { split; [lia|done|done|done|done]. }
  { unfold mkey. rewrite !Hmv by done. rewrite Epn, Epr. cbn. congruence. }
  rewrite E. cbn [mbind option_bind fst snd]. rewrite decide_False by lia. exists c', mb', j'. done.
Qed.
End resim.
