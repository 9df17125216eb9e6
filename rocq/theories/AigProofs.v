(* Invariant of networks built through the creation API and the functional
   specification of the gate constructors. *)
From Verif Require Import Base Aig AigSem AigHash.

Definition gate (kl : list key) (n : nat) : Prop :=
  exists a b, kl !! n = Some (a, b) /\ n <> 0 /\ a <> b.

Definition ngates (kl : list key) : nat := length (filter (fun k : key => k.1 <> k.2) kl).
Global Arguments ngates _ : simpl never.

Record wf (s : aig) : Prop := {
  wf_nx : length (nx s) = length (ks s);
  wf_lfo : length (fo s) = length (ks s);
  wf_lph : length (ph s) = length (ks s);
  wf_const : ks s !! 0 = Some (Sig 0 false, Sig 0 false);
  wf_in : forall k n, ins s !! k = Some n ->
          n <> 0 /\ ks s !! n = Some (sig_of_data k, sig_of_data k);
  wf_ci : forall n a, ks s !! n = Some (a, a) -> n <> 0 -> ins s !! sdata a = Some n;
  wf_gate : forall n a b, ks s !! n = Some (a, b) -> a <> b ->
            0 < sidx a /\ sidx a < sidx b /\ sidx b < n;
  wf_out : forall f, f ∈ outs s -> valid s f;
  wf_tbl : tbl (ks s) (nx s) (hs s) (gate (ks s));
  wf_uniq : forall n m a b, ks s !! n = Some (a, b) -> ks s !! m = Some (a, b) -> a <> b -> n = m;
  wf_ne : ne s = u64 (N.of_nat (ngates (ks s)));
  wf_ph : forall n p, ph s !! n = Some p -> p = ev s (fun _ => false) n;
  wf_fo : forall n h, fo s !! n = Some h -> h = u32 (N.of_nat (references s n));
  wf_npi : npi s <= length (ins s);
  wf_npo : npo s <= length (outs s)
}.

(* s' extends s by new AND nodes only. *)
Record ext (s s' : aig) : Prop := {
  ext_ks : exists t, ks s' = ks s ++ t;
  ext_ins : ins s' = ins s;
  ext_outs : outs s' = outs s;
  ext_npi : npi s' = npi s;
  ext_npo : npo s' = npo s;
  ext_lat : lat s' = lat s
}.

Lemma ext_refl s : ext s s.
Proof. split; try done. exists []. by rewrite app_nil_r. Qed.

Lemma ext_trans s1 s2 s3 : ext s1 s2 -> ext s2 s3 -> ext s1 s3.
Proof.
  intros [[t1 E1] ? ? ? ? ?] [[t2 E2] ? ? ? ? ?]. split; try congruence.
  exists (t1 ++ t2). by rewrite E2, E1, app_assoc.
Qed.

Lemma ext_size s s' : ext s s' -> size s <= size s'.
Proof. intros [[t E] _ _ _ _ _]. unfold size. rewrite E, app_length. lia. Qed.

Lemma ext_valid s s' f : ext s s' -> valid s f -> valid s' f.
Proof. intros He. unfold valid. pose proof (ext_size _ _ He). lia. Qed.

Lemma valid_snot s f : valid s (snot f) <-> valid s f.
Proof. done. Qed.
Lemma valid_sxor s f b : valid s (sxor f b) <-> valid s f.
Proof. done. Qed.

(* ---------------- evaluation ---------------- *)
Lemma evl_app env vs k1 k2 : evl env vs (k1 ++ k2) = evl env (evl env vs k1) k2.
Proof. revert vs. induction k1; cbn; auto. Qed.

Lemma evl_prefix env vs kl : exists t, evl env vs kl = vs ++ t /\ length t = length kl.
Proof.
  revert vs. induction kl as [|k kl IH]; intros vs; cbn.
  - exists []. by rewrite app_nil_r.
  - destruct (IH (vs ++ [key_val env vs k])) as (t & -> & Ht).
    exists (key_val env vs k :: t). rewrite <- app_assoc. cbn. by rewrite Ht.
Qed.

Lemma evl_length env vs kl : length (evl env vs kl) = length vs + length kl.
Proof. destruct (evl_prefix env vs kl) as (t & -> & <-). by rewrite app_length. Qed.

Lemma evl_nth_app env kl t n :
  n < length kl -> nth n (evl env [] (kl ++ t)) false = nth n (evl env [] kl) false.
Proof.
  intros Hn. rewrite evl_app. destruct (evl_prefix env (evl env [] kl) t) as (u & -> & _).
  apply app_nth1. rewrite evl_length. cbn. lia.
Qed.

Lemma ext_ev s s' env n : ext s s' -> n < size s -> ev s' env n = ev s env n.
Proof. intros [[t E] _ _ _ _ _] Hn. unfold ev. rewrite E. by apply evl_nth_app. Qed.

Lemma ext_sval s s' env f : ext s s' -> valid s f -> sval (ev s' env) f = sval (ev s env) f.
Proof. intros He Hv. unfold sval. by rewrite (ext_ev s s'). Qed.

Lemma ev_key env kl n k :
  kl !! n = Some k -> nth n (evl env [] kl) false = key_val env (take n (evl env [] kl)) k.
Proof.
  intros Hk. pose proof (lookup_lt_Some _ _ _ Hk) as Hlt.
  rewrite <- (take_drop_middle kl n k Hk).
  rewrite evl_app. cbn [evl].
  set (vs := evl env [] (take n kl)).
  assert (Hl : length vs = n) by (unfold vs; rewrite evl_length, take_length; cbn; lia).
  destruct (evl_prefix env (vs ++ [key_val env vs k]) (drop (S n) kl)) as (t & -> & _).
  rewrite <- app_assoc. rewrite app_nth2 by lia. rewrite Hl, Nat.sub_diag. cbn.
  rewrite take_app_alt by done. done.
Qed.

Lemma nth_take {A} (d : A) n m l : m < n -> nth m (take n l) d = nth m l d.
Proof.
  revert m l. induction n as [|n IH]; intros m l Hm; [lia|].
  destruct l as [|x l]; [done|]. destruct m as [|m]; cbn; [done|]. apply IH. lia.
Qed.

Lemma take_evl_nonnil env n kl : 0 < n -> kl <> [] -> take n (evl env [] kl) <> [].
Proof.
  intros Hn Hk. destruct n; [lia|]. destruct kl as [|k kl]; [done|].
  destruct (evl_prefix env [] (k :: kl)) as (t & -> & Ht). destruct t; done.
Qed.

Lemma sig_of_data_sdata f : sig_of_data (sdata f) = f.
Proof.
  destruct f as [i c]. unfold sig_of_data, sdata. cbn [sidx scompl]. f_equal.
  - rewrite Nat.div2_div. destruct c; cbn [Nat.b2n].
    + rewrite (Nat.mul_comm 2), Nat.div_add_l by lia. cbn. lia.
    + rewrite Nat.add_0_r, Nat.mul_comm, Nat.div_mul; lia.
  - destruct c; cbn [Nat.b2n].
    + rewrite Nat.odd_add, Nat.odd_mul. done.
    + rewrite Nat.add_0_r, Nat.odd_mul. done.
Qed.

Lemma sdata_sig_of_data d : sdata (sig_of_data d) = d.
Proof. unfold sig_of_data, sdata. cbn [sidx scompl]. symmetry. apply Nat.div2_odd. Qed.

Lemma ev_const s env : wf s -> ev s env 0 = false.
Proof.
  intros Hw. unfold ev. rewrite (ev_key _ _ _ _ (wf_const s Hw)). cbn. done.
Qed.

Lemma key_val_pos env vs k : vs <> [] ->
  key_val env vs k = if decide (k.1 = k.2) then env (sdata k.1)
         else sval (fun n => nth n vs false) k.1 && sval (fun n => nth n vs false) k.2.
Proof. destruct vs; done. Qed.

Lemma ev_gate_keys env kl n a b :
  kl !! n = Some (a, b) -> a <> b -> sidx a < n -> sidx b < n ->
  nth n (evl env [] kl) false =
  sval (fun m => nth m (evl env [] kl) false) a && sval (fun m => nth m (evl env [] kl) false) b.
Proof.
  intros Hk Hab Ha Hb. rewrite (ev_key _ _ _ _ Hk).
  pose proof (lookup_lt_Some _ _ _ Hk) as Hlt.
  rewrite key_val_pos.
  - cbn. rewrite decide_False by done. unfold sval. by rewrite !nth_take by done.
  - apply take_evl_nonnil; [lia|]. by intros ->.
Qed.

Lemma ev_gate s env n a b : wf s -> ks s !! n = Some (a, b) -> a <> b ->
  ev s env n = sval (ev s env) a && sval (ev s env) b.
Proof.
  intros Hw Hk Hab. destruct (wf_gate s Hw _ _ _ Hk Hab) as (? & ? & ?).
  unfold ev. by rewrite (ev_gate_keys _ _ _ _ _ Hk Hab) by lia.
Qed.

Lemma ev_input s env k n : wf s -> ins s !! k = Some n -> ev s env n = env k.
Proof.
  intros Hw Hk. destruct (wf_in s Hw _ _ Hk) as [Hn0 Hn].
  unfold ev. rewrite (ev_key _ _ _ _ Hn). pose proof (lookup_lt_Some _ _ _ Hn) as Hlt.
  rewrite key_val_pos.
  - cbn [fst snd]. rewrite decide_True by done. by rewrite sdata_sig_of_data.
  - apply take_evl_nonnil; [lia|]. intros E. by rewrite E in Hn.
Qed.

(* The evaluation is a valuation, and the only one on the network's nodes. *)
Lemma ev_valuation s env : wf s -> valuation s env (ev s env).
Proof.
  intros Hw. split.
  - by apply ev_const.
  - intros k n Hk. by apply ev_input.
  - intros n a b Hk _ Hab. by apply ev_gate.
Qed.

Lemma valuation_unique s env v : wf s -> valuation s env v ->
  forall n, n < size s -> v n = ev s env n.
Proof.
  intros Hw Hv n. induction (lt_wf n) as [n _ IH]. intros Hn.
  destruct (decide (n = 0)) as [->|Hn0].
  { rewrite (val_const _ _ _ Hv). by rewrite ev_const. }
  destruct (lookup_lt_is_Some_2 (ks s) n Hn) as [[a b] Hk].
  destruct (decide (a = b)) as [->|Hab].
  - pose proof (wf_ci s Hw _ _ Hk Hn0) as Hi.
    rewrite (val_input _ _ _ Hv _ _ Hi). by rewrite (ev_input s env _ _ Hw Hi).
  - destruct (wf_gate s Hw _ _ _ Hk Hab) as (? & ? & ?).
    rewrite (val_gate _ _ _ Hv _ _ _ Hk Hn0 Hab), (ev_gate s env _ _ _ Hw Hk Hab).
    unfold sval. by rewrite !IH by (unfold size in *; lia).
Qed.

Lemma valuation_sval s env v f : wf s -> valuation s env v -> valid s f ->
  sval v f = sval (ev s env) f.
Proof. intros Hw Hv Hf. unfold sval. by rewrite (valuation_unique s env v). Qed.

(* ---------------- references ---------------- *)
Lemma sum_list_app l1 l2 : sum_list (l1 ++ l2) = sum_list l1 + sum_list l2.
Proof. induction l1; cbn; lia. Qed.

Lemma u32_succ x : u32 (u32 (N.of_nat x) + 1) = u32 (N.of_nat (S x)).
Proof. unfold u32. rewrite N.add_mod_idemp_l by done. f_equal. lia. Qed.

Lemma u64_succ x : u64 (u64 (N.of_nat x) + 1) = u64 (N.of_nat (S x)).
Proof. unfold u64. rewrite N.add_mod_idemp_l by done. f_equal. lia. Qed.

(* ---------------- node creation ---------------- *)
Lemma lookup_snoc {A} (l : list A) x n y :
  (l ++ [x]) !! n = Some y -> l !! n = Some y \/ (n = length l /\ y = x).
Proof.
  intros H. destruct (decide (n < length l)).
  - left. by rewrite lookup_app_l in H by done.
  - pose proof (lookup_lt_Some _ _ _ H) as Hlt. rewrite app_length in Hlt. cbn in Hlt.
    assert (n = length l) as -> by lia. rewrite lookup_app_r, Nat.sub_diag in H by lia.
    cbn in H. injection H as <-. by right.
Qed.

Lemma lookup_snoc_eq {A} (l : list A) x : (l ++ [x]) !! length l = Some x.
Proof. rewrite lookup_app_r, Nat.sub_diag by lia. done. Qed.

Lemma tbl_app kl nl hl E x : tbl kl nl hl E -> tbl (kl ++ [x]) (nl ++ [0]) hl E.
Proof.
  intros (Hpos & Hlen & B & [HlB HB] & HE). split; [done|].
  split; [rewrite !app_length; cbn; lia|]. exists B. split; [|done]. split; [done|].
  intros k h l Hh Hl. destruct (HB _ _ _ Hh Hl) as (Hlk & Hnd & Ha).
  split; [by apply linked_app|]. split; [done|]. intros i Hi.
  destruct (Ha _ Hi) as (y & Hy & <-). exists y. split; [by apply lookup_app_l_Some|done].
Qed.

Lemma tbl_iff kl nl hl E E' : tbl kl nl hl E -> (forall i, E i <-> E' i) -> tbl kl nl hl E'.
Proof.
  intros (Hpos & Hlen & B & HB & HE) HE'. split; [done|]. split; [done|]. exists B.
  split; [done|]. intros i. by rewrite <- HE'.
Qed.

Lemma gate_snoc_ci kl d i : gate (kl ++ [(d, d)]) i <-> gate kl i.
Proof.
  split; intros (a & b & Hk & H0 & Hab).
  - apply lookup_snoc in Hk as [Hk|[-> Heq]]; [by exists a, b|]. injection Heq as -> ->. done.
  - exists a, b. split; [by apply lookup_app_l_Some|done].
Qed.

Lemma gate_snoc_and kl a b i : length kl <> 0 -> a <> b ->
  gate (kl ++ [(a, b)]) i <-> (i = length kl \/ gate kl i).
Proof.
  intros H0 Hab. split.
  - intros (a' & b' & Hk & H0' & Hab'). apply lookup_snoc in Hk as [Hk|[-> Heq]]; [|by left].
    right. by exists a', b'.
  - intros [->|(a' & b' & Hk & H0' & Hab')].
    + exists a, b. split; [apply lookup_snoc_eq|done].
    + exists a', b'. split; [by apply lookup_app_l_Some|done].
Qed.

Lemma ngates_app k1 k2 : ngates (k1 ++ k2) = ngates k1 + ngates k2.
Proof. unfold ngates. by rewrite filter_app, app_length. Qed.

Lemma wf_size s : wf s -> 0 < size s.
Proof. intros Hw. by pose proof (lookup_lt_Some _ _ _ (wf_const s Hw)). Qed.

Ltac nilkill H := cbn in H; first [done | by rewrite lookup_nil in H | by destruct H].

Lemma aig_init_wf n : 0 < n -> wf (aig_init_n n).
Proof.
  intros Hpos. split; cbn; try done.
  - intros m a Hk Hn. destruct m; [done|]. nilkill Hk.
  - intros m a b Hk Hab. destruct m; [|nilkill Hk]. cbn in Hk. congruence.
  - intros f ?%elem_of_nil. done.
  - eapply tbl_iff; [apply tbl_empty; [lia|done]|]. intros i. split; [done|].
    intros (a & b & Hk & H0 & Hab). destruct i; [done|]. nilkill Hk.
  - intros n0 m a b Hn Hm Hab. destruct n0; [|nilkill Hn]. cbn in Hn. congruence.
  - intros n0 p Hp. destruct n0; [|nilkill Hp]. cbn in Hp. by injection Hp as <-.
  - intros n0 p Hp. destruct n0; [|nilkill Hp]. cbn in Hp. by injection Hp as <-.
Qed.

(* Both kinds of inputs: [pi] tells whether num_pis is incremented. *)
Definition add_ci (pi : bool) (s : aig) : aig :=
  let d := sig_of_data (length (ins s)) in
  let s1 := push_node (d, d) s in
  Aig (ks s1) (nx s1) (fo s1) (ph s1) (ins s1 ++ [size s]) (outs s1)
      (if pi then S (npi s1) else npi s1) (npo s1) (lat s1) (hs s1) (ne s1).

Lemma references_snoc_ci s d n :
  sum_list (map (gate_refs n) (ks s ++ [(d, d)])) = sum_list (map (gate_refs n) (ks s)).
Proof.
  rewrite map_app, sum_list_app. cbn. unfold gate_refs at 2. cbn. rewrite decide_True by done. lia.
Qed.

Lemma refs_out_of_range s n : wf s -> size s <= n -> references s n = 0.
Proof.
  intros Hw Hn. unfold references.
  assert (H1 : forall l : list key, (forall k, k ∈ l -> gate_refs n k = 0) -> sum_list (map (gate_refs n) l) = 0).
  { induction l as [|k l IH]; intros H; cbn; [done|]. rewrite (H k) by constructor.
    rewrite IH; [done|]. intros k' Hk'. apply H. by constructor. }
  assert (H2 : forall l : list signal, (forall k, k ∈ l -> count_sig n k = 0) -> sum_list (map (count_sig n) l) = 0).
  { induction l as [|k l IH]; intros H; cbn; [done|]. rewrite (H k) by constructor.
    rewrite IH; [done|]. intros k' Hk'. apply H. by constructor. }
  rewrite H1, H2; [done| |].
  - intros f Hf. pose proof (wf_out s Hw f Hf) as Hv. unfold valid in Hv. unfold count_sig.
    rewrite decide_False by lia. done.
  - intros [a b] Hk. unfold gate_refs. cbn. case_decide as Hab; [done|].
    apply elem_of_list_lookup in Hk as [i Hi].
    destruct (wf_gate s Hw _ _ _ Hi Hab) as (? & ? & ?).
    apply lookup_lt_Some in Hi. unfold count_sig. unfold size in Hn.
    rewrite !decide_False by lia. done.
Qed.

Lemma add_ci_wf pi s : wf s -> wf (add_ci pi s).
Proof.
  intros Hw. pose proof (wf_size s Hw) as Hsz. unfold size in Hsz.
  split; cbn.
  - rewrite !app_length. cbn. rewrite (wf_nx s Hw). lia.
  - rewrite !app_length. cbn. rewrite (wf_lfo s Hw). lia.
  - rewrite !app_length. cbn. rewrite (wf_lph s Hw). lia.
  - apply lookup_app_l_Some, Hw.
  - intros k n Hk. apply lookup_snoc in Hk as [Hk|[-> ->]].
    + destruct (wf_in s Hw _ _ Hk). split; [done|]. by apply lookup_app_l_Some.
    + split; [unfold size; lia|]. apply lookup_snoc_eq.
  - intros n a Hk Hn. apply lookup_snoc in Hk as [Hk|[-> Heq]].
    + apply lookup_app_l_Some. by apply Hw.
    + injection Heq as -> . rewrite sdata_sig_of_data. apply lookup_snoc_eq.
  - intros n a b Hk Hab. apply lookup_snoc in Hk as [Hk|[-> Heq]]; [by eapply wf_gate|].
    injection Heq as -> ->. done.
  - intros f Hf. pose proof (wf_out s Hw f Hf). unfold valid, size in *. cbn. rewrite app_length. cbn. lia.
  - eapply tbl_iff; [apply tbl_app, Hw|]. intros i. by rewrite gate_snoc_ci.
  - intros n m a b Hn Hm Hab.
    apply lookup_snoc in Hn as [Hn|[-> Heq]]; [|injection Heq as -> ->; done].
    apply lookup_snoc in Hm as [Hm|[-> Heq]]; [|injection Heq as -> ->; done].
    by eapply wf_uniq.
  - rewrite ngates_app. unfold ngates at 2. cbn. rewrite decide_False by (intros H; by apply H).
    cbn. rewrite Nat.add_0_r. apply Hw.
  - intros n p Hp. apply lookup_snoc in Hp as [Hp|[-> ->]].
    + rewrite (wf_ph s Hw _ _ Hp). unfold ev. cbn. rewrite evl_nth_app; [done|].
      apply lookup_lt_Some in Hp. by rewrite <- (wf_lph s Hw).
    + rewrite (wf_lph s Hw). unfold ev. cbn.
      rewrite (ev_key _ _ _ _ (lookup_snoc_eq (ks s) _)).
      rewrite key_val_pos; [cbn; by rewrite decide_True by done|].
      apply take_evl_nonnil; [lia|]. intros E%(f_equal length). rewrite app_length in E. cbn in E. lia.
  - intros n h Hh. unfold references. cbn. rewrite references_snoc_ci.
    apply lookup_snoc in Hh as [Hh|[-> ->]]; [by apply Hw|].
    pose proof (refs_out_of_range s (length (fo s)) Hw) as Hr. unfold references in Hr.
    rewrite Hr; [done|]. rewrite (wf_lfo s Hw). done.
  - rewrite app_length. cbn. pose proof (wf_npi s Hw). destruct pi; lia.
  - apply Hw.
Qed.

Lemma fo_insert_refs s s' f :
  wf s -> valid s f -> ks s' = ks s -> outs s' = outs s ++ [f] ->
  (exists h, fo s !! sidx f = Some h /\ fo s' = <[sidx f := u32 (h + 1)]> (fo s)) ->
  forall n h, fo s' !! n = Some h -> h = u32 (N.of_nat (references s' n)).
Proof.
  intros Hw Hv Hks Ho (h0 & Hh0 & Hfo) n h Hh.
  assert (Hr : references s' n = references s n + count_sig n f).
  { unfold references. rewrite Hks, Ho, map_app, sum_list_app. cbn. lia. }
  rewrite Hr. unfold count_sig. rewrite Hfo in Hh. case_decide as Hn.
  - subst n. rewrite list_lookup_insert in Hh by (by apply lookup_lt_Some in Hh0). injection Hh as <-.
    rewrite (wf_fo s Hw _ _ Hh0). rewrite u32_succ. do 2 f_equal. lia.
  - rewrite list_lookup_insert_ne in Hh by done. rewrite Nat.add_0_r. by apply Hw.
Qed.

Lemma wf_fo_lookup s n : wf s -> n < size s -> is_Some (fo s !! n).
Proof. intros Hw Hn. apply lookup_lt_is_Some. by rewrite (wf_lfo s Hw). Qed.

(* Both kinds of outputs. *)
Lemma add_co_wf s f (po : bool) r h :
  wf s -> valid s f -> fo s !! sidx f = Some h ->
  wf (Aig (ks s) (nx s) (<[sidx f := u32 (h + 1)]> (fo s)) (ph s) (ins s) (outs s ++ [f]) (npi s)
          (if po then S (npo s) else npo s) r (hs s) (ne s)).
Proof.
  intros Hw Hv Hh. split; cbn; try (by apply Hw).
  - rewrite insert_length. apply Hw.
  - intros g Hg. apply elem_of_app in Hg as [Hg|Hg]; [by apply (wf_out s Hw)|].
    apply elem_of_list_singleton in Hg as ->. done.
  - exact (fo_insert_refs s (Aig (ks s) (nx s) (<[sidx f := u32 (h + 1)]> (fo s)) (ph s) (ins s)
      (outs s ++ [f]) (npi s) (if po then S (npo s) else npo s) r (hs s) (ne s)) f Hw Hv eq_refl eq_refl
      (ex_intro _ h (conj Hh eq_refl))).
  - rewrite app_length. cbn. pose proof (wf_npo s Hw). destruct po; lia.
Qed.

Lemma create_po_wp s f : wf s -> valid s f ->
  wp (create_po f) s (fun r s' => wf s' /\ ks s' = ks s /\ ins s' = ins s /\ outs s' = outs s ++ [f] /\
     npi s' = npi s /\ npo s' = S (npo s) /\ lat s' = lat s /\ r = length (outs s)).
Proof.
  intros Hw Hv. destruct (wf_fo_lookup s _ Hw Hv) as [h Hh].
  unfold wp, create_po, incr_fanout. rewrite Hh. cbn.
  split; [|done]. by apply (add_co_wf s f true (lat s) h).
Qed.

Lemma create_ri_wp s f r : wf s -> valid s f ->
  wp (create_ri f r) s (fun i s' => wf s' /\ ks s' = ks s /\ ins s' = ins s /\ outs s' = outs s ++ [f] /\
     npi s' = npi s /\ npo s' = npo s /\ lat s' = lat s ++ [r] /\ i = length (outs s)).
Proof.
  intros Hw Hv. destruct (wf_fo_lookup s _ Hw Hv) as [h Hh].
  unfold wp, create_ri, incr_fanout. rewrite Hh. cbn.
  split; [|done]. by apply (add_co_wf s f false (lat s ++ [r]) h).
Qed.

Lemma create_pi_wp s : wf s ->
  wp create_pi s (fun f s' => wf s' /\ f = Sig (size s) false /\
    ks s' = ks s ++ [(sig_of_data (length (ins s)), sig_of_data (length (ins s)))] /\
    ins s' = ins s ++ [size s] /\ outs s' = outs s /\ npi s' = S (npi s) /\ npo s' = npo s /\ lat s' = lat s).
Proof.
  intros Hw. unfold wp, create_pi. cbn. split; [|done]. exact (add_ci_wf true s Hw).
Qed.

Lemma create_ro_wp s : wf s ->
  wp create_ro s (fun f s' => wf s' /\ f = Sig (size s) false /\
    ks s' = ks s ++ [(sig_of_data (length (ins s)), sig_of_data (length (ins s)))] /\
    ins s' = ins s ++ [size s] /\ outs s' = outs s /\ npi s' = npi s /\ npo s' = npo s /\ lat s' = lat s).
Proof.
  intros Hw. unfold wp, create_ro. cbn. split; [|done]. exact (add_ci_wf false s Hw).
Qed.

Lemma new_and_wp s a b :
  wf s -> valid s b -> 0 < sidx a -> sidx a < sidx b ->
  (forall n, ks s !! n <> Some (a, b)) ->
  wp (new_and a b) s (fun f s' => wf s' /\ ext s s' /\ f = Sig (size s) false /\
     ks s' = ks s ++ [(a, b)]).
Proof.
  intros Hw Hvb Ha Hab Hno. unfold valid in Hvb.
  assert (Hne : a <> b) by (intros ->; lia).
  pose proof (wf_size s Hw) as Hsz.
  set (s0 := push_node (a, b) s).
  assert (HT : tbl (ks s0) (nx s0) (hs s0) (gate (ks s))) by (apply tbl_app, Hw).
  destruct (hash_insert_spec s0 (gate (ks s)) (a, b) (size s) HT) as (nl & hl & Hins & HT').
  { apply lookup_snoc_eq. }
  { lia. }
  { intros (a' & b' & Hk & _). apply lookup_lt_Some in Hk. exact (Nat.lt_irrefl _ Hk). }
  unfold wp, new_and. fold s0. rewrite Hins. cbn [mbind option_bind ph fo].
  assert (Hlph : length (ph s0) = S (size s)) by (cbn; rewrite app_length, (wf_lph s Hw); cbn; unfold size; lia).
  assert (Hlfo : length (fo s0) = S (size s)) by (cbn; rewrite app_length, (wf_lfo s Hw); cbn; unfold size; lia).
  destruct (lookup_lt_is_Some_2 (ph s0) (sidx a)) as [pa Hpa]; [lia|].
  destruct (lookup_lt_is_Some_2 (ph s0) (sidx b)) as [pb Hpb]; [lia|].
  rewrite Hpa, Hpb. cbn [mbind option_bind].
  unfold incr_fanout. cbn [fo set_fo].
  destruct (lookup_lt_is_Some_2 (fo s0) (sidx a)) as [ha Hha]; [lia|].
  rewrite Hha. cbn [mbind option_bind fo set_fo].
  destruct (lookup_lt_is_Some_2 (fo s0) (sidx b)) as [hb Hhb]; [lia|].
  rewrite list_lookup_insert_ne by lia. rewrite Hhb. cbn [mbind option_bind].
  cbn [set_fo ks nx fo ph ins outs npi npo lat hs ne].
  split; [|split; [split; cbn; try done; by exists [(a,b)]|done]].
  assert (Hpa' : ph s !! sidx a = Some pa).
  { cbn in Hpa. rewrite lookup_app_l in Hpa; [done|]. rewrite (wf_lph s Hw). fold (size s). lia. }
  assert (Hpb' : ph s !! sidx b = Some pb).
  { cbn in Hpb. rewrite lookup_app_l in Hpb; [done|]. rewrite (wf_lph s Hw). fold (size s). lia. }
  assert (Hha' : fo s !! sidx a = Some ha).
  { cbn in Hha. rewrite lookup_app_l in Hha; [done|]. rewrite (wf_lfo s Hw). fold (size s). lia. }
  assert (Hhb' : fo s !! sidx b = Some hb).
  { cbn in Hhb. rewrite lookup_app_l in Hhb; [done|]. rewrite (wf_lfo s Hw). fold (size s). lia. }
  destruct HT' as (HT1 & HT2 & HT3).
  split; cbn [set_fo ks nx fo ph ins outs npi npo lat hs ne].
  - by rewrite HT2.
  - rewrite !insert_length. rewrite Hlfo. cbn. rewrite app_length. cbn. unfold size. lia.
  - rewrite !insert_length. rewrite Hlph. cbn. rewrite app_length. cbn. unfold size. lia.
  - apply lookup_app_l_Some, Hw.
  - intros k n Hk. destruct (wf_in s Hw _ _ Hk). split; [done|]. by apply lookup_app_l_Some.
  - intros n x Hk Hn. apply lookup_snoc in Hk as [Hk|[-> Heq]]; [by apply Hw|].
    injection Heq as -> ->. done.
  - intros n x y Hk Hxy. apply lookup_snoc in Hk as [Hk|[-> Heq]]; [by eapply wf_gate|].
    injection Heq as -> ->. unfold size in *. lia.
  - intros f Hf. pose proof (wf_out s Hw f Hf). unfold valid, size in *. cbn. rewrite app_length. cbn. lia.
  - eapply tbl_iff; [exact (conj HT1 (conj HT2 HT3))|]. intros i. cbn [ks s0 push_node]. unfold s0. cbn.
    rewrite gate_snoc_and; [done|unfold size in *; lia|done].
  - intros n m x y Hn Hm Hxy.
    apply lookup_snoc in Hn as [Hn|[-> Heq]]; apply lookup_snoc in Hm as [Hm|[-> Heq']].
    + by eapply wf_uniq.
    + exfalso. eapply (Hno n). congruence.
    + exfalso. eapply (Hno m). congruence.
    + done.
  - change (u64 (ne s + 1) = u64 (N.of_nat (ngates (ks s ++ [(a, b)])))).
    rewrite ngates_app. unfold ngates at 2. cbn. rewrite decide_True by done. cbn.
    rewrite (wf_ne s Hw), u64_succ. do 2 f_equal. lia.
  - intros n p Hp. unfold ev. cbn [ks set_fo].
    destruct (decide (n = size s)) as [->|Hn].
    + rewrite list_lookup_insert in Hp by lia. injection Hp as <-.
      change (ks s0) with (ks s ++ [(a, b)]).
      rewrite (ev_gate_keys _ _ _ _ _ (lookup_snoc_eq (ks s) (a, b)) Hne) by (unfold size in *; lia).
      unfold sval. rewrite !evl_nth_app by (unfold size in *; lia).
      by rewrite (wf_ph s Hw _ _ Hpa'), (wf_ph s Hw _ _ Hpb').
    + rewrite list_lookup_insert_ne in Hp by done. cbn in Hp.
      apply lookup_snoc in Hp as [Hp|[-> ->]].
      * change (ks s0) with (ks s ++ [(a, b)]).
        cbn [ks set_fo]. rewrite evl_nth_app; [by apply (wf_ph s Hw)|].
        apply lookup_lt_Some in Hp. by rewrite <- (wf_lph s Hw).
      * rewrite (wf_lph s Hw) in Hn. done.
  - intros n h Hh.
    assert (Hr : forall S, ks S = ks s ++ [(a, b)] -> outs S = outs s ->
       references S n = references s n + count_sig n a + count_sig n b).
    { intros S E1 E2. unfold references. rewrite E1, E2, map_app, sum_list_app. cbn.
      unfold gate_refs at 2. cbn. rewrite decide_False by done. lia. }
    rewrite Hr by done. unfold count_sig.
    destruct (decide (sidx b = n)) as [<-|Hb].
    + rewrite list_lookup_insert in Hh by (rewrite insert_length; lia). injection Hh as <-.
      rewrite decide_False by lia. rewrite (wf_fo s Hw _ _ Hhb'), u32_succ. do 2 f_equal. lia.
    + rewrite list_lookup_insert_ne in Hh by done. destruct (decide (sidx a = n)) as [<-|Ha'].
      * rewrite list_lookup_insert in Hh by lia. injection Hh as <-.
        rewrite (wf_fo s Hw _ _ Hha'), u32_succ. do 2 f_equal. lia.
      * rewrite list_lookup_insert_ne in Hh by done. rewrite !Nat.add_0_r.
        cbn in Hh. apply lookup_snoc in Hh as [Hh|[-> ->]]; [by apply Hw|].
        rewrite refs_out_of_range; [done|done|]. rewrite (wf_lfo s Hw). done.
  - apply Hw.
  - apply Hw.
Qed.

Lemma order_cases a b :
  (order a b = (a, b) /\ sidx a <= sidx b) \/ (order a b = (b, a) /\ sidx b < sidx a).
Proof. unfold order. case_decide; [right|left]; split; auto; lia. Qed.

(* Functional post-condition shared by all constructors. *)
Definition builds (s : aig) (val : (nat -> bool) -> bool) (f : signal) (s' : aig) : Prop :=
  wf s' /\ ext s s' /\ valid s' f /\ forall env, sval (ev s' env) f = val env.

Lemma valid_const s b : wf s -> valid s (get_constant b).
Proof. intros Hw. unfold valid. cbn. by apply wf_size. Qed.

Lemma sval_const s env b : wf s -> sval (ev s env) (get_constant b) = b.
Proof. intros Hw. unfold sval. cbn. rewrite ev_const by done. by destruct b. Qed.

Lemma sval_snot v f : sval v (snot f) = negb (sval v f).
Proof. unfold sval. cbn. by destruct (v (sidx f)), (scompl f). Qed.
Lemma sval_sxor v f b : sval v (sxor f b) = xorb (sval v f) b.
Proof. unfold sval. cbn. by destruct (v (sidx f)), (scompl f), b. Qed.
Lemma sval_spos v f : sval v (spos f) = xorb (sval v f) (scompl f).
Proof. unfold sval. cbn. by destruct (v (sidx f)), (scompl f). Qed.
Lemma sval_sneg v f : sval v (sneg f) = negb (xorb (sval v f) (scompl f)).
Proof. unfold sval. cbn. by destruct (v (sidx f)), (scompl f). Qed.

Lemma hash_find_wf s a b : wf s -> a <> b ->
  exists r, hash_find (a, b) s = Some r /\
   ((r <> 0 /\ ks s !! r = Some (a, b)) \/ (r = 0 /\ forall n, ks s !! n <> Some (a, b))).
Proof.
  intros Hw Hab. destruct (tbl_find _ _ _ _ (a, b) s (wf_tbl s Hw) eq_refl eq_refl eq_refl)
    as (r & Hr & [(? & ? & ?)|(-> & Hno)]); exists r || exists 0; split; try done; [by left|].
  right. split; [done|]. intros n Hn. eapply (Hno n); [|done].
  exists a, b. split; [done|]. split; [|done]. intros ->. rewrite (wf_const s Hw) in Hn. congruence.
Qed.

(* Complete description of create_and. *)
Lemma create_and_cases s a b : wf s -> valid s a -> valid s b ->
  wp (create_and a b) s (fun f s' =>
    builds s (fun env => sval (ev s env) a && sval (ev s env) b) f s' /\
    ((s' = s) \/ (ks s' = ks s ++ [order a b] /\ f = Sig (size s) false /\
        (forall n, ks s !! n <> Some (order a b)) /\
        sidx (order a b).1 <> sidx (order a b).2 /\ sidx (order a b).1 <> 0))).
Proof.
  intros Hw Hva Hvb.
  assert (Hwlog : forall a b, valid s a -> valid s b -> sidx a <= sidx b ->
     wp (fun s => if decide (sidx a = sidx b) then
    Some (if decide (scompl a = scompl b) then a else get_constant false, s)
  else if decide (sidx a = 0) then
    Some (if scompl a then b else get_constant false, s)
  else
    found ← hash_find (a, b) s;
    if decide (found = 0) then new_and a b s
    else Some (Sig found false, s)) s (fun f s' =>
    builds s (fun env => sval (ev s env) a && sval (ev s env) b) f s' /\
    ((s' = s) \/ (ks s' = ks s ++ [(a, b)] /\ f = Sig (size s) false /\
        (forall n, ks s !! n <> Some (a, b)) /\ sidx a <> sidx b /\ sidx a <> 0)))).
  { clear a b Hva Hvb. intros a b Hva Hvb Hle. unfold wp. case_decide as H1.
    { split; [|by left]. split; [done|]. split; [apply ext_refl|]. case_decide as H2.
      - split; [done|]. intros env. assert (a = b) as -> by (destruct a, b; cbn in *; congruence).
        by destruct (sval (ev s env) b).
      - split; [by apply valid_const|]. intros env. rewrite sval_const by done.
        unfold sval. rewrite H1. destruct (ev s env (sidx b)), (scompl a), (scompl b); done. }
    case_decide as H2.
    { split; [|by left]. split; [done|]. split; [apply ext_refl|].
      destruct (scompl a) eqn:Hca.
      - split; [done|]. intros env. unfold sval at 2. rewrite H2, ev_const, Hca by done. done.
      - split; [by apply valid_const|]. intros env. rewrite sval_const by done.
        unfold sval at 1. rewrite H2, ev_const, Hca by done. done. }
    assert (Hab : a <> b) by (intros ->; done).
    destruct (hash_find_wf s a b Hw Hab) as (r & Hr & Hcase). rewrite Hr. cbn [mbind option_bind].
    destruct Hcase as [(Hr0 & Hk)|(-> & Hno)].
    - rewrite decide_False by done. split; [|by left]. split; [done|]. split; [apply ext_refl|].
      split; [unfold valid; cbn; by apply lookup_lt_Some in Hk|].
      intros env. unfold sval at 1. cbn. rewrite xorb_false_r. by apply ev_gate.
    - rewrite decide_True by done.
      pose proof (new_and_wp s a b Hw Hvb ltac:(lia) ltac:(lia) Hno) as Hnew.
      unfold wp in Hnew. destruct (new_and a b s) as [[f s']|]; [|done].
      destruct Hnew as (Hw' & He & -> & Hks). split; [|right; done].
      split; [done|]. split; [done|].
      assert (Hlk : ks s' !! size s = Some (a, b)) by (rewrite Hks; apply lookup_snoc_eq).
      split; [unfold valid; cbn; by apply lookup_lt_Some in Hlk|].
      intros env. unfold sval at 1. cbn. rewrite xorb_false_r.
      rewrite (ev_gate s' env _ _ _ Hw' Hlk Hab).
      by rewrite !(ext_sval s s'). }
  unfold create_and. destruct (order_cases a b) as [[-> Hle]|[-> Hlt]].
  - by apply Hwlog.
  - eapply wp_mono; [apply Hwlog; [done|done|lia]|].
    intros f s' [(? & ? & ? & Hval) Hc]. split; [|done].
    split; [done|]. split; [done|]. split; [done|]. intros env. rewrite Hval. apply andb_comm.
Qed.

Lemma create_and_wp s a b : wf s -> valid s a -> valid s b ->
  wp (create_and a b) s (builds s (fun env => sval (ev s env) a && sval (ev s env) b)).
Proof.
  intros Hw Ha Hb. eapply wp_mono; [by apply create_and_cases|]. intros f s' [? _]. done.
Qed.

Ltac svals := rewrite ?sval_snot, ?sval_sxor, ?sval_spos, ?sval_sneg.

(* Step through one constructor call: gives wf, ext, validity and value. *)
Tactic Notation "bstep" uconstr(lem) ident(f) ident(s') ident(Hw) ident(He) ident(Hv) ident(Hval) :=
  apply wp_bnd; eapply wp_mono; [apply lem; try done|
  intros f s' (Hw & He & Hv & Hval)].

Lemma builds_ext s s1 s' val f : ext s s1 -> builds s1 val f s' -> builds s val f s'.
Proof. intros He (? & He' & ? & ?). split; [done|]. split; [by eapply ext_trans|done]. Qed.

Lemma builds_eq s s' val val' f : (forall env, val env = val' env) -> builds s val f s' -> builds s val' f s'.
Proof. intros Heq (? & ? & ? & Hv). repeat (split; [done|]). intros env. by rewrite Hv. Qed.

Lemma create_not_wp s (m : M aig signal) val : 
  wp m s (builds s val) -> wp (let! f := m in ret (snot f)) s (builds s (fun env => negb (val env))).
Proof.
  intros H. apply wp_bnd. eapply wp_mono; [exact H|]. intros f s' (? & ? & ? & Hv).
  apply wp_ret. repeat (split; [done|]). intros env. by rewrite sval_snot, Hv.
Qed.

Lemma create_nand_wp s a b : wf s -> valid s a -> valid s b ->
  wp (create_nand a b) s (builds s (fun env => negb (sval (ev s env) a && sval (ev s env) b))).
Proof. intros. by apply create_not_wp, create_and_wp. Qed.

Lemma create_or_wp s a b : wf s -> valid s a -> valid s b ->
  wp (create_or a b) s (builds s (fun env => sval (ev s env) a || sval (ev s env) b)).
Proof.
  intros. eapply wp_mono; [by apply create_not_wp, create_and_wp|].
  intros f s'. apply builds_eq. intros env. svals. by destruct (sval _ a), (sval _ b).
Qed.

Lemma create_nor_wp s a b : wf s -> valid s a -> valid s b ->
  wp (create_nor a b) s (builds s (fun env => negb (sval (ev s env) a || sval (ev s env) b))).
Proof.
  intros. eapply wp_mono; [by apply create_and_wp|].
  intros f s'. apply builds_eq. intros env. svals. by destruct (sval _ a), (sval _ b).
Qed.

Lemma create_lt_wp s a b : wf s -> valid s a -> valid s b ->
  wp (create_lt a b) s (builds s (fun env => negb (sval (ev s env) a) && sval (ev s env) b)).
Proof.
  intros. eapply wp_mono; [by apply create_and_wp|].
  intros f s'. apply builds_eq. intros env. by svals.
Qed.

Lemma create_le_wp s a b : wf s -> valid s a -> valid s b ->
  wp (create_le a b) s (builds s (fun env => implb (sval (ev s env) a) (sval (ev s env) b))).
Proof.
  intros. eapply wp_mono; [by apply create_not_wp, create_and_wp|].
  intros f s'. apply builds_eq. intros env. svals. by destruct (sval _ a), (sval _ b).
Qed.

Ltac ext_eval He := rewrite ?(ext_sval _ _ _ _ He) by done.

Lemma create_xor_wp s a b : wf s -> valid s a -> valid s b ->
  wp (create_xor a b) s (builds s (fun env => xorb (sval (ev s env) a) (sval (ev s env) b))).
Proof.
  intros Hw Ha Hb. unfold create_xor.
  bstep create_and_wp c1 s1 Hw1 He1 Hv1 Hval1.
  assert (Ha1 := ext_valid _ _ _ He1 Ha). assert (Hb1 := ext_valid _ _ _ He1 Hb).
  bstep create_and_wp c2 s2 Hw2 He2 Hv2 Hval2.
  assert (Hv1' := ext_valid _ _ _ He2 Hv1).
  bstep create_and_wp f s3 Hw3 He3 Hv3 Hval3.
  apply wp_ret. split; [done|]. split; [eauto using ext_trans|]. split; [done|].
  intros env. svals. rewrite Hval3. svals. rewrite Hval2.
  rewrite (ext_sval _ _ _ _ He2 Hv1), Hval1. svals.
  rewrite (ext_sval _ _ _ _ He1 Ha), (ext_sval _ _ _ _ He1 Hb).
  by destruct (sval _ a), (sval _ b), (scompl a), (scompl b).
Qed.

Lemma create_xnor_wp s a b : wf s -> valid s a -> valid s b ->
  wp (create_xnor a b) s (builds s (fun env => negb (xorb (sval (ev s env) a) (sval (ev s env) b)))).
Proof. intros. by apply create_not_wp, create_xor_wp. Qed.

Lemma ite_core_wp s c t e fc : wf s -> valid s c -> valid s t -> valid s e ->
  wp (let! x := create_and (snot c) e in
      let! y := create_and c t in
      let! f := create_and (snot x) (snot y) in
      ret (sxor f (negb fc))) s
    (builds s (fun env => xorb (if sval (ev s env) c then sval (ev s env) t else sval (ev s env) e) fc)).
Proof.
  intros Hw Hc Ht He.
  bstep create_and_wp x s1 Hw1 He1 Hv1 Hval1.
  bstep create_and_wp y s2 Hw2 He2 Hv2 Hval2; [by eapply ext_valid; eauto..|].
  bstep create_and_wp f s3 Hw3 He3 Hv3 Hval3; [by apply (ext_valid s1)|].
  apply wp_ret. split; [done|]. split; [eauto using ext_trans|]. split; [done|].
  intros env. svals. rewrite Hval3. svals. rewrite Hval2.
  rewrite (ext_sval _ _ _ _ He2 Hv1), Hval1. svals.
  rewrite (ext_sval _ _ _ _ He1 Hc), (ext_sval _ _ _ _ He1 Ht).
  by destruct (sval _ c), (sval _ t), (sval _ e), fc.
Qed.

Lemma create_ite_wp s c t e : wf s -> valid s c -> valid s t -> valid s e ->
  wp (create_ite c t e) s
    (builds s (fun env => if sval (ev s env) c then sval (ev s env) t else sval (ev s env) e)).
Proof.
  intros Hw Hc Ht He. unfold create_ite.
  case_decide; cbn beta iota zeta.
  - destruct (scompl e) eqn:Hce; cbn beta iota zeta;
      (eapply wp_mono; [by apply ite_core_wp|]; intros f s'; apply builds_eq; intros env; svals;
       rewrite ?Hce; by destruct (sval (ev s env) c), (sval (ev s env) t), (sval (ev s env) e)).
  - destruct (scompl t) eqn:Hct; cbn beta iota zeta;
      (eapply wp_mono; [by apply ite_core_wp|]; intros f s'; apply builds_eq; intros env; svals;
       rewrite ?Hct; by destruct (sval (ev s env) c), (sval (ev s env) t), (sval (ev s env) e)).
Qed.

Definition maj3 (a b c : bool) : bool := (a && b) || (c && (a || b)).

Lemma create_maj_wp s a b c : wf s -> valid s a -> valid s b -> valid s c ->
  wp (create_maj a b c) s
    (builds s (fun env => maj3 (sval (ev s env) a) (sval (ev s env) b) (sval (ev s env) c))).
Proof.
  intros Hw Ha Hb Hc. unfold create_maj.
  bstep create_and_wp x s1 Hw1 He1 Hv1 Hval1.
  bstep create_and_wp y s2 Hw2 He2 Hv2 Hval2; [by eapply ext_valid; eauto..|].
  bstep create_and_wp z s3 Hw3 He3 Hv3 Hval3; [eauto using ext_valid|].
  eapply wp_mono; [apply create_or_wp; try done; eauto using ext_valid|].
  intros f s4 (Hw4 & He4 & Hv4 & Hval4).
  split; [done|]. split; [eauto using ext_trans|]. split; [done|].
  intros env. rewrite Hval4, Hval3. svals. rewrite Hval2. svals.
  rewrite (ext_sval s1 s3) by eauto using ext_trans. rewrite Hval1.
  rewrite (ext_sval s s2) by eauto using ext_trans.
  rewrite !(ext_sval s s1) by done. unfold maj3.
  by destruct (sval _ a), (sval _ b), (sval _ c).
Qed.

Lemma create_xor3_wp s a b c : wf s -> valid s a -> valid s b -> valid s c ->
  wp (create_xor3 a b c) s
    (builds s (fun env => xorb (xorb (sval (ev s env) a) (sval (ev s env) b)) (sval (ev s env) c))).
Proof.
  intros Hw Ha Hb Hc. unfold create_xor3.
  bstep create_xor_wp x s1 Hw1 He1 Hv1 Hval1.
  eapply wp_mono; [apply create_xor_wp; try done; eauto using ext_valid|].
  intros f s2 (Hw2 & He2 & Hv2 & Hval2).
  split; [done|]. split; [eauto using ext_trans|]. split; [done|].
  intros env. rewrite Hval2, Hval1. by rewrite (ext_sval s s1) by done.
Qed.

(* n-ary constructors through tree_reduce *)
Lemma tree_reduce_wp (g : bool -> bool -> bool) (unit : bool) (cop : signal -> signal -> M aig signal) init :
  (forall x, g unit x = x) -> (forall x y z, g x (g y z) = g (g x y) z) -> (forall x, g x unit = x) ->
  (forall s a b, wf s -> valid s a -> valid s b ->
     wp (cop a b) s (builds s (fun env => g (sval (ev s env) a) (sval (ev s env) b)))) ->
  (forall s, wf s -> valid s init /\ forall env, sval (ev s env) init = unit) ->
  forall fuel l s, length l < fuel -> wf s -> Forall (valid s) l ->
  wp (tree_reduceM fuel cop init l) s
     (builds s (fun env => foldr g unit (map (sval (ev s env)) l))).
Proof.
  intros Hid Hassoc Hidr Hop Hinit. induction fuel as [|fuel IH]; intros l s Hf Hw Hl; [lia|].
  destruct l as [|x [|y [|z l]]]; cbn [tree_reduceM].
  - apply wp_ret. destruct (Hinit s Hw) as [Hv He]. split; [done|]. split; [apply ext_refl|]. done.
  - apply wp_ret. apply Forall_cons in Hl as [Hx _]. split; [done|]. split; [apply ext_refl|].
    split; [done|]. intros env. cbn. by rewrite Hidr.
  - apply Forall_cons in Hl as [Hx Hl]. apply Forall_cons in Hl as [Hy _].
    eapply wp_mono; [by apply Hop|]. intros f s'. apply builds_eq. intros env. cbn. by rewrite Hidr.
  - set (L := x :: y :: z :: l) in *. set (m := length L / 2).
    assert (Hm : 0 < m /\ m < length L).
    { unfold m. split; [apply Nat.div_str_pos; cbn; lia|apply Nat.div_lt; cbn; lia]. }
    assert (Hl' := Hl). rewrite <- (take_drop m L) in Hl'. apply Forall_app in Hl' as [Hl1 Hl2].
    apply wp_bnd. eapply wp_mono; [apply IH; [|done|done]|].
    { rewrite take_length. lia. }
    intros fa s1 (Hw1 & He1 & Hv1 & Hval1).
    apply wp_bnd. eapply wp_mono; [apply IH; [|done|]|].
    { rewrite drop_length. lia. }
    { eapply Forall_impl; [exact Hl2|]. intros f Hv. by eapply ext_valid. }
    intros fb s2 (Hw2 & He2 & Hv2 & Hval2).
    eapply wp_mono; [apply Hop; [done|by eapply ext_valid|done]|].
    intros f s3 (Hw3 & He3 & Hv3 & Hval3).
    split; [done|]. split; [eauto using ext_trans|]. split; [done|].
    intros env. rewrite Hval3, Hval2, (ext_sval s1 s2), Hval1 by done.
    rewrite <- (take_drop m L) at 3. rewrite map_app, foldr_app.
    rewrite (map_ext_in (sval (ev s1 env)) (sval (ev s env)) (drop m L)).
    2:{ intros g' Hg'. apply ext_sval; [done|]. rewrite Forall_forall in Hl2. apply Hl2.
        by apply elem_of_list_In. }
    generalize (foldr g unit (map (sval (ev s env)) (drop m L))) as B. intros B.
    generalize (map (sval (ev s env)) (take m L)) as A. induction A as [|a A IHA]; cbn.
    + by rewrite Hid.
    + rewrite <- IHA. by rewrite Hassoc.
Qed.

Lemma create_nary_and_wp s l : wf s -> Forall (valid s) l ->
  wp (create_nary_and l) s (builds s (fun env => foldr andb true (map (sval (ev s env)) l))).
Proof.
  intros. apply (tree_reduce_wp andb true); try done; try lia.
  - intros. apply andb_assoc.
  - apply andb_true_r.
  - apply create_and_wp.
  - intros s' Hw'. split; [by apply valid_const|]. intros env. by apply sval_const.
Qed.

Lemma create_nary_or_wp s l : wf s -> Forall (valid s) l ->
  wp (create_nary_or l) s (builds s (fun env => foldr orb false (map (sval (ev s env)) l))).
Proof.
  intros. apply (tree_reduce_wp orb false); try done; try lia.
  - intros. apply orb_assoc.
  - apply orb_false_r.
  - apply create_or_wp.
  - intros s' Hw'. split; [by apply valid_const|]. intros env. by apply sval_const.
Qed.

Lemma create_nary_xor_wp s l : wf s -> Forall (valid s) l ->
  wp (create_nary_xor l) s (builds s (fun env => foldr xorb false (map (sval (ev s env)) l))).
Proof.
  intros. apply (tree_reduce_wp xorb false); try done; try lia.
  - by intros [].
  - intros. by rewrite xorb_assoc.
  - apply xorb_false_r.
  - apply create_xor_wp.
  - intros s' Hw'. split; [by apply valid_const|]. intros env. by apply sval_const.
Qed.
