(* Correctness of the binary AIGER writer and reader. *)
From Coq Require Import ZifyBool ZifyNat ZifyN.
From Verif Require Import Base Aig AigSem AigHash AigProofs AigApi AigReach Topo TopoProofs Clean NetProofs CleanProofs Aiger.
Local Open Scope N_scope.

(* ---------------- delta code ---------------- *)
Lemma land_low a b k : (0 <= k -> 0 <= a < 2 ^ k -> Z.land a (b * 2 ^ k) = 0)%Z.
Proof.
  intros Hk Ha. apply Z.bits_inj'. intros n Hn. rewrite Z.land_spec, Z.bits_0, <- Z.shiftl_mul_pow2 by done.
  rewrite Z.shiftl_spec by done. destruct (decide (n < k)%Z) as [Hlt|Hge].
  - rewrite (Z.testbit_neg_r b) by lia. apply andb_false_r.
  - destruct (decide (a = 0%Z)) as [->|Ha0]; [by rewrite Z.bits_0|].
    rewrite (Z.bits_above_log2 a n); [done|lia|]. apply Z.log2_lt_pow2; [lia|].
    eapply Z.lt_le_trans; [apply Ha|]. apply Z.pow_le_mono_r; lia.
Qed.

Lemma lor_add a b k : (0 <= k -> 0 <= a < 2 ^ k -> Z.lor a (b * 2 ^ k) = a + b * 2 ^ k)%Z.
Proof.
  intros Hk Ha. symmetry. rewrite Z.add_nocarry_lxor by by apply land_low.
  apply Z.bits_inj'. intros n Hn. rewrite Z.lxor_spec, Z.lor_spec.
  pose proof (land_low a b k Hk Ha) as H. apply (f_equal (fun z => Z.testbit z n)) in H.
  rewrite Z.land_spec, Z.bits_0 in H. by destruct (Z.testbit a n), (Z.testbit (b * 2 ^ k) n).
Qed.

Definition live (r : bytes) : stream := Str r false false.

Definition below (k : nat) (P : N -> bool) : bool := forallb (fun i => P (N.of_nat i)) (seq 0 k).
Lemma below_spec k P c : below k P = true -> c < N.of_nat k -> P c = true.
Proof.
  unfold below. rewrite forallb_forall. intros H Hc. rewrite <- (N2Nat.id c). apply H, in_seq. lia.
Qed.

Lemma byte_low c : c < 128 -> Z.land (Z.of_N c) 127 = Z.of_N c /\ Z.land (Z.of_N c) 128 = 0%Z.
Proof.
  intros Hc. assert (H : below 128 (fun c => bool_decide (Z.land (Z.of_N c) 127 = Z.of_N c /\ Z.land (Z.of_N c) 128 = 0%Z)) = true)
    by (vm_compute; reflexivity).
  apply (below_spec 128 _ c) in H; [|done]. by apply bool_decide_eq_true in H.
Qed.
Lemma byte_high c : c < 128 -> Z.land (Z.of_N (c + 128)) 127 = Z.of_N c /\ Z.land (Z.of_N (c + 128)) 128 <> 0%Z.
Proof.
  intros Hc. assert (H : below 128 (fun c => bool_decide (Z.land (Z.of_N (c + 128)) 127 = Z.of_N c /\ Z.land (Z.of_N (c + 128)) 128 <> 0%Z)) = true)
    by (vm_compute; reflexivity).
  apply (below_spec 128 _ c) in H; [|done]. by apply bool_decide_eq_true in H.
Qed.

Lemma wrap32_small z : (- 2 ^ 31 <= z < 2 ^ 31)%Z -> wrap32 z = z.
Proof. intros H. unfold wrap32. rewrite Z.mod_small; lia. Qed.

Lemma decode_go lit bs : forall f1 f2 i res r,
  encode_go f1 lit = Some bs -> (f1 <= f2)%nat -> (0 <= i <= 4)%Z -> (0 <= res < 2 ^ (7 * i))%Z ->
  (Z.of_N lit * 2 ^ (7 * i) < 2 ^ 32)%Z ->
  decode_with shl_int f2 i res (live (bs ++ r)) = DOk (wrap32 (res + Z.of_N lit * 2 ^ (7 * i))) (live r).
Proof.
  intros f1. revert lit bs. induction f1 as [|f1 IH]; intros lit bs f2 i res r He Hf Hi Hres Hlt; [done|].
  destruct f2 as [|f2]; [lia|]. cbn [encode_go] in He. destruct (decide (lit < 128)) as [Hs|Hs].
  - injection He as <-. cbn [app]. cbn [decode_with getc good live rest eofb failb negb andb].
    destruct (byte_low lit Hs) as [-> Hhi]. unfold shl_int. rewrite decide_True by (split; [lia|done]).
    rewrite decide_True by done. f_equal.
    assert (Hw : exists q, wrap32 (Z.of_N lit * 2 ^ (7 * i)) = (q * 2 ^ (7 * i))%Z /\
       wrap32 (res + Z.of_N lit * 2 ^ (7 * i)) = (res + q * 2 ^ (7 * i))%Z).
    { assert (Hc : (i = 0 \/ i = 1 \/ i = 2 \/ i = 3 \/ i = 4)%Z) by lia.
      destruct Hc as [->|[->|[->|[->| ->]]]].
      1-4: exists (Z.of_N lit); rewrite !wrap32_small; cbn in *; split; lia.
      cbn in Hlt, Hres |- *. destruct (decide (lit < 8)) as [H8|H8].
      - exists (Z.of_N lit). unfold wrap32. rewrite !Z.mod_small by lia. lia.
      - exists (Z.of_N lit - 16)%Z. unfold wrap32. 
        clear - Hlt Hres H8. Z.div_mod_to_equations. lia. }
    destruct Hw as (q & -> & ->). apply lor_add; lia.
  - destruct (encode_go f1 (lit / 128)) as [bs'|] eqn:He'; [|done]. injection He as <-.
    cbn [app decode_with getc good live rest eofb failb negb andb].
    assert (Hm : lit mod 128 < 128) by (by apply N.mod_lt). 
    destruct (byte_high _ Hm) as [-> Hhi]. 
    assert (Hc : (i = 0 \/ i = 1 \/ i = 2 \/ i = 3)%Z).
    { assert (i <> 4)%Z; [|lia]. intros ->. cbn in Hlt. lia. }
    assert (Hb : (Z.of_N (lit mod 128) * 2 ^ (7 * i) <= 127 * 2 ^ 21)%Z).
    { destruct Hc as [->|[->|[->| ->]]]; cbn; lia. }
    unfold shl_int. rewrite decide_True by lia. rewrite decide_False by done.
    rewrite wrap32_small by lia. rewrite lor_add by lia.
    change (Str (bs' ++ r) false false) with (live (bs' ++ r)).
    assert (Hp : (2 ^ (7 * (i + 1)) = 128 * 2 ^ (7 * i))%Z).
    { rewrite Z.mul_add_distr_l, Z.pow_add_r by lia. lia. }
    assert (Hd : Z.of_N lit = (128 * Z.of_N (lit / 128) + Z.of_N (lit mod 128))%Z).
    { rewrite (N.div_mod lit 128) at 1 by done. lia. }
    rewrite (IH _ _ f2 (i + 1)%Z _ r He'); [|lia|lia| |].
    + f_equal. f_equal. rewrite Hp, Hd. lia.
    + rewrite Hp. nia.
    + rewrite Hp. rewrite Hd in Hlt. nia.
Qed.

Lemma encode_total f lit : lit < 128 * 128 ^ N.of_nat f -> is_Some (encode_go (S f) lit).
Proof.
  revert lit. induction f as [|f IH]; intros lit H; cbn [encode_go].
  - cbn in H. by rewrite decide_True.
  - destruct (decide (lit < 128)); [done|]. destruct (IH (lit / 128)) as [r Hr].
    + apply N.div_lt_upper_bound; [done|]. rewrite Nat2N.inj_succ, N.pow_succ_r' in H. done.
    + cbn [encode_go] in Hr. rewrite Hr. done.
Qed.

Lemma encode_decode d r : d < 2 ^ 32 ->
  exists bs, encode d = Some bs /\ decode (live (bs ++ r)) = Some (wrap32 (Z.of_N d), live r).
Proof.
  intros Hd. destruct (encode_total 4 d) as [bs Hbs]; [cbn; lia|]. exists bs. split; [done|].
  unfold decode. rewrite (decode_go d bs 5 6 0 0 r Hbs) by (cbn; lia). cbn. by rewrite Z.mul_1_r.
Qed.

(* what decode does on every stream, for any total meaning of << *)
Lemma getc_short l : forall st, getc st = (-1, l)%Z -> good l = false.
Proof.
  intros st. unfold getc. destruct (good st) eqn:Hg.
  - destruct (rest st) as [|c r]; [by intros [= <-]|]. intros [= H ?]. lia.
  - intros [= <-]. cbn. unfold good in *. cbn. apply andb_false_r.
Qed.

Lemma decode_stuck (shl : Z -> Z -> Z) fuel : forall i res st, good st = false ->
  decode_with (fun x k => Some (shl x k)) fuel i res st = DFuel.
Proof.
  induction fuel as [|f IH]; intros i res st Hg; [done|]. cbn [decode_with].
  destruct (getc st) as [c st'] eqn:Hc. assert (Hcc : c = (-1)%Z) by (unfold getc in Hc; rewrite Hg in Hc; congruence).
  subst c. cbn. apply IH. by eapply getc_short.
Qed.

Lemma decode_diverges (shl : Z -> Z -> Z) fuel : forall l i res,
  Forall (fun c => 128 <= c < 256) l -> decode_with (fun x k => Some (shl x k)) fuel i res (live l) = DFuel.
Proof.
  induction fuel as [|f IH]; intros l i res Hl; [done|]. cbn [decode_with].
  destruct l as [|c l]; cbn [getc good live rest eofb failb negb andb].
  - cbn. by apply decode_stuck.
  - apply Forall_cons in Hl as [Hc Hl]. 
    destruct (byte_high (c - 128)) as [_ Hh]; [lia|]. replace (c - 128 + 128) with c in Hh by lia.
    rewrite decide_False by done. by apply IH.
Qed.

Lemma decode_terminates (shl : Z -> Z -> Z) p c : forall i res r,
  c < 128 -> Forall (fun c => 128 <= c < 256) p ->
  exists z, decode_with (fun x k => Some (shl x k)) (S (length p)) i res (live (p ++ c :: r)) = DOk z (live r).
Proof.
  induction p as [|x p IH]; intros i res r Hc Hp; cbn [app length decode_with getc good live rest eofb failb negb andb].
  - destruct (byte_low c Hc) as [_ ->]. rewrite decide_True by done. eauto.
  - apply Forall_cons in Hp as [Hx Hp]. destruct (byte_high (x - 128)) as [_ Hh]; [lia|]. replace (x - 128 + 128) with x in Hh by lia.
    rewrite decide_False by done. by apply IH.
Qed.

(* ---------------- decimal numbers ---------------- *)
Lemma dec_digit f n : Forall (fun c => 48 <= c <= 57) (dec_go f n).
Proof.
  revert n. induction f as [|f IH]; intros n; cbn [dec_go]; [done|]. case_decide; [constructor; [lia|done]|].
  apply Forall_app. split; [apply IH|]. constructor; [|done]. pose proof (N.mod_lt n 10). lia.
Qed.

Lemma dec_nonnil n : dec n <> [].
Proof. unfold dec. cbn [dec_go]. case_decide; [done|]. intros Hx. by apply app_eq_nil in Hx as [_ ?]. Qed.

Lemma digits_val_app l c : digits_val (l ++ [c]) = 10 * digits_val l + (c - 48).
Proof. unfold digits_val. by rewrite fold_left_app. Qed.

Lemma dec_val f n : n < 10 * 10 ^ N.of_nat f -> digits_val (dec_go (S f) n) = n.
Proof.
  revert n. induction f as [|f IH]; intros n H; cbn [dec_go].
  - cbn in H. rewrite decide_True by lia. cbn [digits_val fold_left]. unfold digits_val. cbn [fold_left]. lia.
  - case_decide as Hd; [unfold digits_val; cbn [fold_left]; lia|]. rewrite digits_val_app.
    assert (Hr : digits_val (dec_go (S f) (n / 10)) = n / 10).
    { apply IH. apply N.div_lt_upper_bound; [done|]. rewrite Nat2N.inj_succ, N.pow_succ_r' in H. done. }
    cbn [dec_go] in Hr. rewrite Hr. rewrite (N.div_mod n 10) at 3 by done. lia.
Qed.
Lemma dec_val32 n : n < 2 ^ 32 -> digits_val (dec n) = n.
Proof. intros H. apply (dec_val 9). cbn. lia. Qed.

Definition digit_list (d : bytes) : Prop := Forall (fun c => 48 <= c <= 57) d.

Lemma take_digits_app d r : digit_list d -> (forall c r', r = c :: r' -> is_digit c = false) ->
  take_digits (d ++ r) = (d, r).
Proof.
  induction 1 as [|c d Hc Hd IH]; intros Hr; cbn [app].
  - destruct r as [|c r]; [done|]. cbn. by rewrite (Hr c r).
  - cbn [take_digits]. unfold is_digit at 1. rewrite bool_decide_eq_true_2 by done. by rewrite IH.
Qed.
Lemma take_digits_all d : digit_list d -> take_digits d = (d, []).
Proof. intros H. rewrite <- (app_nil_r d) at 1. by apply take_digits_app. Qed.

Lemma ato_digits lo hi d : d <> [] -> digit_list d -> (lo <= Z.of_N (digits_val d) <= hi)%Z ->
  ato lo hi d = Some (Z.of_N (digits_val d)).
Proof.
  intros Hn Hd Hr. unfold ato. destruct d as [|c d]; [done|]. pose proof Hd as Hd'. apply Forall_cons in Hd as [Hc Hd].
  assert (Hs : skip_space (c :: d) = c :: d).
  { cbn. unfold is_space. by rewrite bool_decide_eq_false_2 by lia. }
  rewrite Hs. assert (Hm : match c :: d with 45 :: r => (true, r) | 43 :: r => (false, r) | _ => (false, c :: d) end = (false, c :: d)).
  { destruct c as [|p]; [lia|]. repeat (destruct p as [p|p|]; try lia; try reflexivity). }
  rewrite Hm. rewrite (take_digits_all (c :: d)) by done. by rewrite decide_True.
Qed.

Lemma atol_dec n : n < 2 ^ 32 -> atol (dec n) = Some (Z.of_N n).
Proof.
  intros H. unfold atol. rewrite ato_digits; rewrite ?dec_val32 by done; [done|apply dec_nonnil|apply dec_digit|lia].
Qed.

Lemma to_u32_small n : n < 2 ^ 32 -> to_u32 (Z.of_N n) = n.
Proof. intros H. unfold to_u32. rewrite Z.mod_small by lia. apply N2Z.id. Qed.

(* ---------------- lines ---------------- *)
Definition plain (t : bytes) : Prop := Forall (fun c => c <> 10 /\ c <> 13) t.
Lemma scan_line t r : plain t -> scan (t ++ nl :: r) = (t, Some r).
Proof.
  induction 1 as [|c t [H1 H2] Ht IH]; [done|]. cbn [app scan]. rewrite !decide_False by done. by rewrite IH.
Qed.
Lemma getline_live t r : plain t -> getline (live (t ++ nl :: r)) = (t, live r).
Proof. intros H. unfold getline. cbn [rest live]. by rewrite scan_line. Qed.
Lemma dec_plain n : plain (dec n).
Proof. eapply Forall_impl; [apply dec_digit|]. cbn. lia. Qed.

Lemma num_groups_ok ds : forall fuel, Forall (fun d => d <> [] /\ digit_list d) ds -> (length ds < fuel)%nat ->
  num_groups fuel (concat (map (cons sp) ds)) = Some ds.
Proof.
  induction ds as [|d ds IH]; intros fuel Hd Hf; (destruct fuel as [|fuel]; [cbn in Hf; lia|]); [done|].
  apply Forall_cons in Hd as [[Hn Hd] Hds]. cbn [map concat app num_groups]. rewrite decide_True by done.
  rewrite take_digits_app; [|done|].
  - rewrite decide_False by done. rewrite IH; [done|done|cbn in Hf; lia].
  - intros c r' H. destruct ds; [done|]. by injection H as <- _.
Qed.

Lemma match_header_ok ds : Forall (fun d => d <> [] /\ digit_list d) ds -> (5 <= length ds <= 9)%nat ->
  match_header (magic ++ concat (map (cons sp) ds)) = Some ds.
Proof.
  intros Hd Hl. unfold match_header, magic. cbn [app]. rewrite decide_True by done.
  rewrite num_groups_ok; [cbn [mbind option_bind]; by rewrite decide_True|done|].
  apply Nat.lt_succ_r. clear Hl. induction ds as [|d ds IH]; [cbn; lia|]. apply Forall_cons in Hd as [_ Hd].
  cbn [map concat]. rewrite app_length. cbn [length]. specialize (IH Hd). lia.
Qed.

Lemma header_plain ds : Forall (fun d => d <> [] /\ digit_list d) ds -> plain (magic ++ concat (map (cons sp) ds)).
Proof.
  intros Hd. apply Forall_app. split; [repeat constructor; done|].
  induction Hd as [|d ds [_ Hd] Hds IH]; [constructor|]. cbn [map concat]. apply Forall_app. split; [|done].
  constructor; [done|]. eapply Forall_impl; [exact Hd|]. cbn. lia.
Qed.

(* ---------------- outputs ---------------- *)
Lemma read_outputs_ok fs : forall acc r, Forall (fun f => N.of_nat (sdata f) < 2 ^ 32) fs ->
  times (length fs) read_output (acc, live (concat (map (fun f => dec (lit32 f) ++ [nl]) fs) ++ r)) =
  Some (acc ++ map (fun f => (N.of_nat (sdata f), [])) fs, live r).
Proof.
  induction fs as [|f fs IH]; intros acc r Hf; [by rewrite app_nil_r|].
  apply Forall_cons in Hf as [Hf Hfs]. cbn [length times map concat read_output].
  rewrite <- !app_assoc. cbn [app]. rewrite getline_live by apply dec_plain.
  assert (Hu : lit32 f = N.of_nat (sdata f)) by (unfold lit32, u32; by rewrite N.mod_small).
  rewrite Hu, atol_dec by done. cbn [mbind option_bind]. rewrite to_u32_small by done.
  rewrite IH by done. by rewrite <- app_assoc.
Qed.

(* ---------------- networks that can be written ---------------- *)
Lemma u32_small n : n < 2 ^ 32 -> u32 n = n.
Proof. intros H. unfold u32. by rewrite N.mod_small. Qed.

Lemma sdata_bounds f : (2 * sidx f <= sdata f <= 2 * sidx f + 1)%nat.
Proof. unfold sdata. destruct (scompl f); cbn [Nat.b2n]; lia. Qed.

Lemma sig_of_lit_sdata sigs f g : sigs !! sidx f = Some g ->
  sig_of_lit sigs (N.of_nat (sdata f)) = Some (sxor g (scompl f)).
Proof.
  intros H. unfold sig_of_lit. 
  assert (Hd : N.to_nat (N.of_nat (sdata f) / 2) = sidx f).
  { unfold sdata. destruct (scompl f); cbn [Nat.b2n]; rewrite ?N2Nat.inj_div, ?Nat2N.id; change (N.to_nat 2) with 2%nat.
    - rewrite (Nat.mul_comm 2), Nat.div_add_l by lia. cbn. lia.
    - rewrite (Nat.mul_comm 2), Nat.div_add_l by lia. cbn. lia. }
  rewrite Hd, H. cbn [mbind option_bind]. f_equal.
  assert (Ho : N.odd (N.of_nat (sdata f)) = scompl f).
  { unfold sdata. rewrite Nat2N.inj_add, Nat2N.inj_mul. rewrite N.add_comm, N.odd_add_mul_2. by destruct (scompl f). }
  rewrite Ho. destruct g as [i c]. unfold sxor, snot. cbn. by destruct (scompl f), c.
Qed.

Lemma clean_sdata s f : clean s -> valid s f -> N.of_nat (sdata f) < 2 ^ 32.
Proof.
  intros C Hf. pose proof (sdata_bounds f). pose proof (cl_size _ C). unfold valid in Hf. lia.
Qed.

Lemma clean_gate s n : clean s -> (length (ins s) < n < size s)%nat ->
  exists a b, ks s !! n = Some (a, b) /\ n <> O /\ a <> b /\ (sidx a < n)%nat /\ (sidx b < n)%nat.
Proof.
  intros C Hn. destruct (net_cases s n (cl_net _ C)) as [->|[[k Hk]|(Hn0 & a & b & E & Hab)]]; [lia|lia| |].
  - rewrite (cl_ins _ C) in Hk. apply lookup_seq in Hk. lia.
  - exists a, b. split; [done|]. split; [done|]. split; [done|].
    split; apply (cl_order _ C); exists a, b; auto.
Qed.

Lemma clean_in s k : clean s -> (k < length (ins s))%nat -> ins s !! k = Some (S k).
Proof. intros C Hk. rewrite (cl_ins _ C). by rewrite lookup_seq_lt. Qed.

Lemma clean_ins_lt s : clean s -> (length (ins s) < size s)%nat.
Proof.
  intros C. pose proof (net_size _ (cl_net _ C)) as Hs. destruct (decide (length (ins s) = 0)%nat); [lia|].
  pose proof (net_ins_valid s (cl_net _ C)) as H. rewrite Forall_lookup in H.
  pose proof (H _ _ (clean_in s (length (ins s) - 1) C ltac:(lia))). lia.
Qed.

Lemma gates_from_ok s ns l1 l2 : ns = l1 ++ l2 ->
  (forall n, n ∈ l1 -> is_ci s n = Some true /\ is_Some (is_dead s n)) ->
  (forall n, n ∈ l2 -> is_ci s n = Some false /\ is_dead s n = Some false) ->
  gates_from s ns = Some l2.
Proof.
  intros ->. induction l1 as [|n l1 IH]; intros H1 H2; cbn [app gates_from].
  - clear H1. induction l2 as [|n l2 IH]; [done|]. cbn [gates_from].
    destruct (H2 n) as [-> ->]; [apply elem_of_list_here|]. rewrite IH; [done|].
    intros m Hm. apply H2. by apply elem_of_list_further.
  - destruct (H1 n) as [-> [x ->]]; [apply elem_of_list_here|]. rewrite IH; [by destruct x| |done].
    intros m Hm. apply H1. by apply elem_of_list_further.
Qed.

Lemma gates_clean s : clean s -> gates s = Some (seq (S (length (ins s))) (size s - 1 - length (ins s))).
Proof.
  intros C. pose proof (clean_ins_lt s C) as Hlt. unfold gates. eapply gates_from_ok.
  - replace (size s - 1)%nat with (length (ins s) + (size s - 1 - length (ins s)))%nat at 1 by lia.
    rewrite seq_app. done.
  - intros n Hn. apply elem_of_seq in Hn. 
    destruct (net_in _ (cl_net _ C) (n - 1)%nat n) as [_ E].
    { rewrite (clean_in s _ C) by lia. f_equal. lia. }
    unfold is_ci, is_dead. rewrite E. cbn. split; [by rewrite bool_decide_eq_true_2|].
    destruct (lookup_lt_is_Some_2 (fo s) n) as [h ->]; [rewrite (net_fo _ (cl_net _ C)); lia|]. done.
  - intros n Hn. apply elem_of_seq in Hn. destruct (clean_gate s n C) as (a & b & E & Hn0 & Hab & _); [lia|]. 
    unfold is_ci. rewrite E. cbn. split; [by rewrite bool_decide_eq_false_2|].
    apply (cl_alive _ C). by exists a, b.
Qed.

Lemma to_u32_wrap n g x : (0 <= n < 2 ^ 32)%Z -> (0 <= g - x)%Z -> n = (g - x)%Z -> to_u32 (g - wrap32 x) = Z.to_N n.
Proof.
  intros Hn Hx ->. unfold to_u32, wrap32. f_equal. Z.div_mod_to_equations. lia.
Qed.
Lemma to_u32_wrap2 n g x y : (0 <= n < 2 ^ 32)%Z -> n = (g - x - y)%Z -> to_u32 (g - wrap32 x - wrap32 y) = Z.to_N n.
Proof.
  intros Hn ->. unfold to_u32, wrap32. f_equal. Z.div_mod_to_equations. lia.
Qed.

(* the fanins in the order of their literals *)
Definition by_lit (a b : signal) : key := if decide (sdata b < sdata a)%nat then (b, a) else (a, b).

Lemma write_gate_ok s n a b : clean s -> ks s !! n = Some (a, b) -> (sidx a < n)%nat -> (sidx b < n)%nat ->
  exists bs, write_gate s n = Some bs /\ forall r, exists d1 d2 st1,
    decode (live (bs ++ r)) = Some (d1, st1) /\ decode st1 = Some (d2, live r) /\
    to_u32 (Z.of_N (u32 (2 * N.of_nat n)) - d1) = N.of_nat (sdata (by_lit a b).2) /\
    to_u32 (Z.of_N (u32 (2 * N.of_nat n)) - d1 - d2) = N.of_nat (sdata (by_lit a b).1).
Proof.
  intros C E Ha Hb. pose proof (lookup_lt_Some _ _ _ E) as Hn. pose proof (cl_size _ C) as Hs. unfold size in Hs.
  pose proof (sdata_bounds a) as Ba. pose proof (sdata_bounds b) as Bb.
  unfold write_gate. rewrite E. cbn [mbind option_bind fst snd]. unfold lit32. rewrite !u32_small by lia.
  set (x := by_lit a b).
  assert (Hx : (if decide (N.of_nat (sdata b) < N.of_nat (sdata a)) then (N.of_nat (sdata b), N.of_nat (sdata a))
    else (N.of_nat (sdata a), N.of_nat (sdata b))) = (N.of_nat (sdata x.1), N.of_nat (sdata x.2)) /\
    (sdata x.1 <= sdata x.2 < 2 * n)%nat).
  { unfold x, by_lit. do 2 case_decide; try lia; cbn; split; done || lia. }
  destruct Hx as [-> Hx]. rewrite decide_True by lia.
  destruct (encode_decode (2 * N.of_nat n - N.of_nat (sdata x.2)) []) as (b1 & E1 & _); [lia|].
  destruct (encode_decode (N.of_nat (sdata x.2) - N.of_nat (sdata x.1)) []) as (b2 & E2 & _); [lia|].
  rewrite E1, E2. cbn [mbind option_bind]. eexists. split; [done|]. intros r.
  destruct (encode_decode (2 * N.of_nat n - N.of_nat (sdata x.2)) (b2 ++ r)) as (b1' & E1' & D1); [lia|].
  destruct (encode_decode (N.of_nat (sdata x.2) - N.of_nat (sdata x.1)) r) as (b2' & E2' & D2); [lia|].
  rewrite E1 in E1'. injection E1' as <-. rewrite E2 in E2'. injection E2' as <-.
  rewrite <- app_assoc. rewrite D1. do 3 eexists. split; [done|]. split; [exact D2|]. split.
  - rewrite (to_u32_wrap (Z.of_nat (sdata x.2))); lia.
  - rewrite (to_u32_wrap2 (Z.of_nat (sdata x.1))); lia.
Qed.

Lemma write_gates_ok s k : forall n, clean s -> (length (ins s) < n)%nat -> (n + k <= size s)%nat ->
  is_Some (write_gates s (seq n k)).
Proof.
  induction k as [|k IH]; intros n C Hn Hk; [done|]. cbn [seq write_gates].
  destruct (clean_gate s n C) as (a & b & E & _ & _ & Ha & Hb); [lia|].
  destruct (write_gate_ok s n a b C E Ha Hb) as (bs & -> & _).
  destruct (IH (S n) C) as [l ->]; [lia|lia|]. done.
Qed.

Definition idsigs (n : nat) : list signal := map (fun i => Sig i false) (seq 0 n).
Lemma idsigs_lookup n i : (i < n)%nat -> idsigs n !! i = Some (Sig i false).
Proof. intros H. unfold idsigs. rewrite map_lookup, lookup_seq_lt by done. done. Qed.
Lemma idsigs_snoc n : idsigs (S n) = idsigs n ++ [Sig n false].
Proof. unfold idsigs. by rewrite seq_S, map_app. Qed.

Lemma read_ands_ok s k : forall n sigs d b, clean s -> (length (ins s) < n)%nat -> (n + k <= size s)%nat ->
  length sigs = n -> reachable d -> (forall m, (m < n)%nat -> image s d id sigs m) ->
  write_gates s (seq n k) = Some b ->
  exists sigs' d', (forall r, read_ands k (N.of_nat n) sigs (live (b ++ r)) d = Some (sigs', live r, d')) /\
    (exists t, sigs' = sigs ++ t) /\ reachable d' /\ ext d d' /\ length sigs' = (n + k)%nat /\ (forall m, (m < n + k)%nat -> image s d' id sigs' m) /\
    (wf s -> sigs = idsigs n -> ks d = take n (ks s) -> sigs' = idsigs (n + k) /\ ks d' = take (n + k) (ks s)).
Proof.
  induction k as [|k IH]; intros n sigs d b C Hn Hk Hl Hr Him Hw.
  - injection Hw as <-. exists sigs, d. cbn. rewrite Nat.add_0_r. split; [done|].
    split; [exists []; by rewrite app_nil_r|]. split; [done|]. split; [apply ext_refl|]. done.
  - cbn [seq write_gates] in Hw. destruct (clean_gate s n C) as (x & y & E & Hn0 & Hxy & Hx & Hy); [lia|].
    destruct (write_gate_ok s n x y C E Hx Hy) as (bs & Hbs & Hdec). rewrite Hbs in Hw. cbn [mbind option_bind] in Hw.
    destruct (write_gates s (seq (S n) k)) as [l|] eqn:Hwl; [|done]. cbn in Hw. injection Hw as <-.
    set (q := by_lit x y) in *.
    assert (Hq : (q.1 = x /\ q.2 = y) \/ (q.1 = y /\ q.2 = x)).
    { unfold q, by_lit. case_decide; cbn; auto. }
    assert (Hq1 : (sidx q.1 < n)%nat) by (destruct Hq as [[-> _]|[-> _]]; lia).
    assert (Hq2 : (sidx q.2 < n)%nat) by (destruct Hq as [[_ ->]|[_ ->]]; lia).
    destruct (Him _ Hq1) as (f1 & F1 & V1 & P1). destruct (Him _ Hq2) as (f2 & F2 & V2 & P2).
    assert (Hand : wp (on_and (N.of_nat n) (N.of_nat (sdata q.2)) (N.of_nat (sdata q.1)) sigs) d (fun sigs' d' =>
      (exists f, sigs' = sigs ++ [f]) /\ reachable d' /\ ext d d' /\ length sigs' = S n /\ (forall m, (m < S n)%nat -> image s d' id sigs' m) /\
      (wf s -> sigs = idsigs n -> ks d = take n (ks s) -> sigs' = idsigs (S n) /\ ks d' = take (S n) (ks s)))).
    { unfold on_and. rewrite decide_True by (by rewrite Hl).
      apply wp_bnd. eapply wp_lift; [by apply sig_of_lit_sdata|].
      apply wp_bnd. eapply wp_lift; [by apply sig_of_lit_sdata|].
      apply wp_bnd. pose proof (create_and_r d (sxor f2 (scompl q.2)) (sxor f1 (scompl q.1)) Hr V2 V1) as Hc.
      apply wp_elim in Hc as (f & d' & Ec & Hr' & He & Hv & Hval).
      unfold wp. rewrite Ec. cbn [ret]. split; [by eexists|]. split; [done|]. split; [done|].
      split; [rewrite app_length; cbn; lia|]. split.
      - intros m Hm. destruct (decide (m = n)) as [->|Hmn].
        + exists f. split; [rewrite <- Hl; apply lookup_snoc_eq|]. split; [done|].
          intros e v V. rewrite Hval, !sval_sxor, (P1 e v V), (P2 e v V).
          rewrite (val_gate _ _ _ V n x y E Hn0 Hxy). unfold sval.
          destruct Hq as [[-> ->]|[-> ->]]; [apply andb_comm|done].
        + apply (image_ext s d d' id _ m He). destruct (Him m) as (g & Hg & ?); [lia|]. exists g. split; [|done].
          by apply lookup_app_l_Some.
      - intros W Hid Hks. destruct (wf_gate _ W n x y E Hxy) as (Hx0 & Hxy' & _).
        assert (Hq' : q = (x, y)). { unfold q, by_lit. rewrite decide_False; [done|]. pose proof (sdata_bounds x). pose proof (sdata_bounds y). lia. }
        rewrite Hq' in *. cbn [fst snd] in *. rewrite Hid in F1, F2. rewrite idsigs_lookup in F1 by done. rewrite idsigs_lookup in F2 by done.
        injection F1 as <-. injection F2 as <-. rewrite Hid.
        assert (S1 : sxor (Sig (sidx x) false) (scompl x) = x) by (by destruct x as [? []]).
        assert (S2 : sxor (Sig (sidx y) false) (scompl y) = y) by (by destruct y as [? []]). rewrite S1, S2 in Ec.
        assert (Hsz : size d = n). { unfold size. rewrite Hks, take_length. pose proof (lookup_lt_Some _ _ _ E). lia. }
        assert (Ho : order y x = (x, y)). { destruct (order_cases y x) as [[-> ?]|[-> ?]]; [lia|done]. }
        pose proof (create_and_new d y x Hr) as Hc. rewrite Ho, Hsz in Hc.
        assert (Hc' := Hc V2 V1 ltac:(lia) ltac:(lia) ltac:(lia)). clear Hc.
        assert (Hno : forall m, ks d !! m <> Some (x, y)).
        { intros m Hm. rewrite Hks in Hm. apply lookup_take_Some in Hm as [Hm ?].
          assert (m = n) by (by eapply (wf_uniq _ W)). lia. }
        specialize (Hc' Hno). unfold wp in Hc'. rewrite Ec in Hc'. destruct Hc' as (_ & _ & Hks' & ->).
        split; [by rewrite idsigs_snoc|]. rewrite Hks', Hks. symmetry. by apply take_S_r. }
    apply wp_elim in Hand as (sigs1 & d1' & Ea & [f Hf] & Hr1 & He1 & Hl1 & Him1 & Hst1).
    destruct (IH (S n) sigs1 d1' l C ltac:(lia) ltac:(lia) Hl1 Hr1 Him1 Hwl) as (sigs' & d' & E' & [t Ht] & Hr' & He' & Hl' & Him' & Hst').
    exists sigs', d'. split.
    { intros r. rewrite <- app_assoc. destruct (Hdec (l ++ r)) as (d1 & d2 & st1 & D1 & D2 & T1 & T2).
      cbn [read_ands]. rewrite D1. cbn [mbind option_bind]. rewrite D2. cbn [mbind option_bind]. rewrite T1, T2, Ea.
      cbn [mbind option_bind]. replace (N.of_nat n + 1) with (N.of_nat (S n)) by lia. apply E'. }
    split; [exists (f :: t); by rewrite Ht, Hf, <- app_assoc|].
    split; [done|]. split; [by eapply ext_trans|].
    split; [lia|]. split; [intros m Hm; apply Him'; lia|]. intros W Hid Hks. destruct (Hst1 W Hid Hks) as [H1 H2].
    destruct (Hst' W H1 H2) as [H3 H4]. by rewrite Nat.add_succ_r.
Qed.

(* ---------------- header, outputs, whole files ---------------- *)
Lemma header_inputs nb ni : (0 < nb)%nat ->
  wp (on_header (N.of_nat ni) 0) (aig_init_n nb) (fun sigs d => reachable d /\ sigs = idsigs (S ni) /\
    ins d = seq 1 ni /\ size d = S ni /\ npi d = ni /\ outs d = [] /\ npo d = O).
Proof.
  intros Hnb. unfold on_header. apply wp_bnd. rewrite Nat2N.id.
  eapply wp_mono; [eapply (mapM_wp _ (fun p fs d => reachable d /\ fs = map (fun i => Sig i false) (seq 1 (length p)) /\
    ins d = seq 1 (length p) /\ size d = S (length p) /\ npi d = length p /\ outs d = [] /\ npo d = O))|].
  - split; [by constructor|]. done.
  - intros p x q fs d _ (Hr & -> & Hin & Hsz & Hnpi & Ho & Hnpo).
    eapply wp_mono; [by apply create_pi_r|]. cbn beta.
    intros f d' (Hr' & -> & Hks' & Hins' & Hout' & Hnpi' & Hnpo' & _). split; [done|].
    rewrite app_length. cbn [length]. rewrite Nat.add_1_r, !seq_S, map_app. cbn [map].
    rewrite Hins', Hin, Hsz. split; [done|]. split; [done|].
    split; [unfold size in *; rewrite Hks', app_length; cbn; lia|]. split; [lia|]. by rewrite Hout', Hnpo'.
  - cbn beta. intros fs d (Hr & -> & Hin & Hsz & Hnpi & Ho & Hnpo). rewrite seq_length in *.
    apply wp_bnd. change (N.to_nat 0) with O. cbn [seq mapM]. apply wp_ret. apply wp_ret.
    rewrite app_nil_r. done.
Qed.

Definition add_names (l : list (signal * bytes)) (m : list (signal * bytes)) : list (signal * bytes) :=
  fold_left (fun acc x => add_name x.1 x.2 acc) l m.

Lemma foldM_outputs sigs fs : forall gs d, reachable d -> length gs = length fs ->
  (forall k f g, fs !! k = Some f -> gs !! k = Some g -> sigs !! sidx f = Some g /\ valid d g) ->
  exists d', (forall names os, map fst os = map (fun f => N.of_nat (sdata f)) fs -> foldM (finish_output sigs) names os d =
      Some (add_names (zip (zip_with (fun g f => sxor g (scompl f)) gs fs) (map snd os)) names, d')) /\
    reachable d' /\ ks d' = ks d /\ ins d' = ins d /\ npi d' = npi d /\
    outs d' = outs d ++ zip_with (fun g f => sxor g (scompl f)) gs fs /\ npo d' = (npo d + length fs)%nat.
Proof.
  induction fs as [|f fs IH]; intros [|g gs] d Hr Hl H; try done.
  - exists d. cbn. rewrite app_nil_r, Nat.add_0_r. split; [|done]. by intros names [|].
  - destruct (H O f g eq_refl eq_refl) as [Hs Hv].
    assert (Hpo := create_po_r d (sxor g (scompl f)) Hr Hv). apply wp_elim in Hpo as (r & d1 & Epo & Hpo).
    destruct Hpo as (Hr1 & Hks & Hins & Hout & Hnpi & Hnpo & _ & _).
    destruct (IH gs d1 Hr1) as (d' & E & Hr' & Hks2 & Hins2 & Hnpi2 & Hout2 & Hnpo2); [by injection Hl| |].
    { intros k f' g' Hf Hg. destruct (H (S k) f' g' Hf Hg) as [? Hv']. split; [done|]. unfold valid, size in *. by rewrite Hks. }
    exists d'. split.
    + intros names [|[o nm] os] Hos; [done|]. cbn in Hos. injection Hos as -> Hos.
      cbn [foldM]. unfold finish_output at 1. unfold bnd at 1 2 3. cbn [fst snd].
      rewrite (sig_of_lit_sdata sigs f g Hs). unfold lift. rewrite Epo. unfold ret. by rewrite (E _ os Hos).
    + split; [done|]. split; [congruence|]. split; [congruence|]. split; [congruence|].
      rewrite Hout2, Hout, <- app_assoc. split; [done|]. cbn [length]. lia.
Qed.

Lemma clean_pos s : clean s -> pos s = outs s /\ npi s = length (ins s) /\ npo s = length (outs s).
Proof.
  intros C. pose proof (cl_comb _ C) as H. unfold is_combinational in H. apply bool_decide_eq_true in H as [H1 H2].
  split; [|done]. unfold pos. rewrite <- H2. apply firstn_all.
Qed.

Lemma clean_num_gates s : clean s -> num_gates s = N.of_nat (size s - 1 - length (ins s)).
Proof. intros C. unfold num_gates. rewrite (cl_count _ C). apply u32_small. pose proof (cl_size _ C). lia. Qed.

Lemma read_names_end ni r fuel : read_names (S fuel) ni r (live [99]) = Some r.
Proof. reflexivity. Qed.

(* Reading what the writer wrote, up to the symbol table. *)
Lemma aiger_read_back nb s : (0 < nb)%nat -> clean s ->
  exists pre sigs d, write_aiger s = Some (pre ++ [99]) /\
    (forall tail r, read_names (S (S (S (length tail)))) (N.of_nat (length (ins s)))
        (Rd sigs (map (fun f => (N.of_nat (sdata f), [])) (outs s)) [] []) (live tail) = Some r ->
      r_sigs r = sigs -> map fst (r_outs r) = map (fun f => N.of_nat (sdata f)) (outs s) -> r_lats r = [] ->
      read_aiger nb (pre ++ tail) = Some (Some (d, add_names (zip (outs d) (map snd (r_outs r))) (r_names r)))) /\
    reachable d /\ npi d = npi s /\ npo d = npo s /\ ins d = ins s /\ length (outs d) = length (outs s) /\
    (forall k, (k <= length (ins s))%nat -> sigs !! k = Some (Sig k false)) /\
    (forall env l, computes s env l <-> computes d env l) /\
    (wf s -> ks d = ks s /\ ins d = ins s /\ outs d = outs s).
Proof.
  intros Hnb C. pose proof (cl_net _ C) as Hnet. destruct (clean_pos s C) as (Hpos & Hnpi & Hnpo).
  pose proof (clean_ins_lt s C) as Hlt. pose proof (cl_size _ C) as Hsz. pose proof (cl_outs _ C) as Hno.
  set (I := length (ins s)) in *. set (A := (size s - 1 - I)%nat) in *.
  destruct (write_gates_ok s A (S I) C) as [gb Hgb]; [lia|lia|].
  set (ds := [dec (N.of_nat I + N.of_nat A); dec (N.of_nat I); dec 0; dec (N.of_nat (npo s)); dec (N.of_nat A)]).
  assert (Hds : Forall (fun d => d <> [] /\ digit_list d) ds).
  { unfold ds. repeat (constructor; [split; [apply dec_nonnil|apply dec_digit]|]). constructor. }
  set (body := concat (map (fun f => dec (lit32 f) ++ [nl]) (pos s)) ++ gb).
  assert (Hw : write_aiger s = Some (((magic ++ concat (map (cons sp) ds)) ++ nl :: body) ++ [99])).
  { unfold write_aiger. rewrite (cl_comb _ C), (gates_clean s C). cbn [mbind option_bind]. fold I A. rewrite Hgb. cbn [mbind option_bind].
    rewrite (clean_num_gates s C). fold I A. rewrite !u32_small by lia. rewrite Hnpi. unfold body, ds. cbn [map concat].
    rewrite !app_nil_r. f_equal. rewrite <- !app_assoc. cbn [app]. rewrite <- !app_assoc. cbn [app]. 
    rewrite <- !app_assoc. cbn [app]. rewrite <- !app_assoc. cbn [app]. rewrite <- !app_assoc. cbn [app]. rewrite <- !app_assoc. cbn [app]. done. }
  eexists. rewrite Hw.
  assert (Hhead : wp (on_header (N.of_nat I) 0) (aig_init_n nb) (fun sigs d => reachable d /\ sigs = idsigs (S I) /\
    ins d = seq 1 I /\ size d = S I /\ npi d = I /\ outs d = [] /\ npo d = O)) by (by apply header_inputs).
  apply wp_elim in Hhead as (sigs0 & d0 & Ehead & Hr0 & -> & Hin0 & Hsz0 & Hnpi0 & Ho0 & Hnpo0).
  assert (Hin0' : ins d0 = ins s) by (rewrite Hin0; symmetry; apply (cl_ins _ C)).
  assert (Him0 : forall m, (m < S I)%nat -> image s d0 id (idsigs (S I)) m).
  { intros m Hm. exists (Sig m false). split; [by apply idsigs_lookup|]. split; [unfold valid; cbn; lia|].
    intros e v V. unfold sval. cbn. rewrite xorb_false_r. destruct m as [|m].
    - rewrite (val_const _ _ _ V). apply (val_const d0 e), ev_valuation. by apply reachable_wf.
    - assert (Hi : ins s !! m = Some (S m)) by (apply clean_in; [done|lia]).
      rewrite (val_input _ _ _ V m _ Hi). apply ev_input; [by apply reachable_wf|]. by rewrite Hin0'. }
  assert (Hl0 : length (idsigs (S I)) = S I) by (unfold idsigs; by rewrite map_length, seq_length).
  destruct (read_ands_ok s A (S I) (idsigs (S I)) d0 gb C) as (sigs1 & d1 & Eands & [st Hsigs] & Hr1 & He1 & Hl1 & Him1 & Hst1);
    [lia|lia|done|done|done|done|].
  replace (S I + A)%nat with (size s) in * by lia.
  set (gs := map (fun f => default (Sig 0 false) (sigs1 !! sidx f)) (outs s)).
  assert (Hgs : forall k f g, outs s !! k = Some f -> gs !! k = Some g -> sigs1 !! sidx f = Some g /\ valid d1 g).
  { intros k f g Hf Hg. unfold gs in Hg. rewrite map_lookup, Hf in Hg. cbn in Hg. injection Hg as <-.
    pose proof (net_out _ Hnet) as Hv. rewrite Forall_lookup in Hv. specialize (Hv k f Hf). 
    destruct (Him1 (sidx f) Hv) as (g & Hg & Hvg & _). rewrite Hg. done. }
  destruct (foldM_outputs sigs1 (outs s) gs d1 Hr1 ltac:(by unfold gs; rewrite map_length) Hgs)
    as (d & Efin & Hr & Hks & Hins & Hnpi' & Houts & Hnpo').
  rewrite (ext_outs _ _ He1), Ho0 in Houts. cbn [app] in Houts. rewrite (ext_npo _ _ He1), Hnpo0 in Hnpo'.
  rewrite (ext_ins _ _ He1), Hin0' in Hins. rewrite (ext_npi _ _ He1), Hnpi0 in Hnpi'.
  exists sigs1, d. split; [done|]. split.
  { intros tail r Hnm Hrs Hro Hrl.
    rewrite <- (app_assoc _ (nl :: body)). rewrite <- app_comm_cons.
    unfold read_aiger. change (Str ?x false false) with (live x). rewrite getline_live by by apply header_plain.
    rewrite match_header_ok by (done || (unfold ds; cbn; lia)).
    assert (Hz : mapM (S := unit) (fun d => lift (atol d)) ds tt = Some ([Z.of_N (N.of_nat I + N.of_nat A); Z.of_N (N.of_nat I);
       Z.of_N 0; Z.of_N (N.of_nat (npo s)); Z.of_N (N.of_nat A)], tt)).
    { unfold ds. cbn [mapM]. unfold bnd, lift, ret. rewrite !atol_dec by lia. done. }
    rewrite Hz. cbn [mbind option_bind fst map]. rewrite !to_u32_small by lia.
    cbn [lookup list_lookup default option_rect from_option id]. rewrite Ehead. cbn [mbind option_bind].
    change (N.to_nat 0) with O. cbn [times mbind option_bind]. 
    unfold body. rewrite Hpos, Hnpo, Nat2N.id, <- app_assoc.
    assert (Hfs : Forall (fun f => N.of_nat (sdata f) < 2 ^ 32) (outs s)).
    { eapply Forall_impl; [apply (net_out _ Hnet)|]. intros f Hf. by eapply clean_sdata. }
    rewrite (read_outputs_ok (outs s) [] _ Hfs). cbn [mbind option_bind times read_justice app].
    rewrite !u32_small by lia. 
    replace (N.to_nat (N.of_nat I + 0 + N.of_nat A + 1 - (N.of_nat I + 0 + 1))) with A by lia.
    replace (N.of_nat I + 0 + 1) with (N.of_nat (S I)) by lia. rewrite Eands. cbn [mbind option_bind rest live].
    rewrite Hnm. cbn [mbind option_bind]. unfold finish. rewrite Hrs, Hrl.
    unfold bnd. rewrite (Efin _ _ Hro). cbn [foldM]. unfold ret. cbn [mbind option_bind]. by rewrite Houts. }
  assert (Hlo : length (outs d) = length (outs s)).
  { rewrite Houts, zip_with_length. unfold gs. rewrite map_length. lia. }
  split; [done|]. split; [congruence|]. split; [lia|]. split; [done|]. split; [done|]. split.
  { intros k Hk. rewrite Hsigs. apply lookup_app_l_Some, idsigs_lookup. lia. }
  split.
  - assert (Hposd : pos d = outs d). { unfold pos. apply firstn_all2. lia. }
    assert (Hcomp : forall env v, valuation s env v -> computes d env (map (sval v) (pos s))).
    { intros env v V. exists (ev d env). split; [by apply ev_valuation, reachable_wf|].
      rewrite Hpos, Hposd. apply list_eq. intros k. rewrite !map_lookup.
      destruct (outs s !! k) as [f|] eqn:Hf; cbn.
      - pose proof (net_out _ Hnet) as Hv. rewrite Forall_lookup in Hv. specialize (Hv k f Hf).
        destruct (Him1 (sidx f) Hv) as (g & Hg & Hvg & Hval).
        assert (Hgk : gs !! k = Some g). { unfold gs. rewrite map_lookup, Hf. cbn. by rewrite Hg. }
        rewrite Houts, lookup_zip_with, Hgk, Hf. cbn. f_equal. rewrite sval_sxor.
        assert (Hev : sval (ev d env) g = sval (ev d1 env) g) by (unfold ev; by rewrite Hks).
        rewrite Hev, (Hval env v V). done.
      - rewrite (lookup_ge_None_2 (outs d)); [done|]. apply lookup_ge_None in Hf. lia. }
    intros env l. split.
    + intros (v & V & ->). by apply Hcomp.
    + intros Hc. destruct (net_valuation s env Hnet) as [v V]. exists v. split; [done|].
      eapply computes_unique; [|exact Hc|by apply Hcomp]. by apply wf_network, reachable_wf.
  - intros W. assert (Hks0 : ks d0 = take (S I) (ks s)).
    { apply list_eq. intros i. destruct (decide (i < S I)%nat) as [Hi|Hi].
      - rewrite lookup_take by done. destruct i as [|i].
        + rewrite (net_const s) by done. apply (net_const d0). by apply wf_network, reachable_wf.
        + destruct (net_in s Hnet i (S i)) as [_ ->]; [apply clean_in; [done|lia]|].
          apply (net_in d0); [by apply wf_network, reachable_wf|]. rewrite Hin0'. apply clean_in; [done|lia].
      - rewrite lookup_take_ge by lia. apply lookup_ge_None_2. unfold size in Hsz0. lia. }
    destruct (Hst1 W eq_refl Hks0) as [Hsig Hks1].
    split; [rewrite Hks, Hks1; apply take_ge; unfold size; lia|]. split; [done|].
    rewrite Houts. apply list_eq. intros k. rewrite lookup_zip_with. unfold gs. rewrite map_lookup.
    destruct (outs s !! k) as [f|] eqn:Hf; [|done]. cbn.
    pose proof (net_out _ Hnet) as Hv. rewrite Forall_lookup in Hv. specialize (Hv k f Hf).
    rewrite Hsig, idsigs_lookup by done. cbn. f_equal. by destruct f as [? []].
Qed.

Lemma add_names_nil l : forall m, Forall (fun x : signal * bytes => x.2 = []) l -> add_names l m = m.
Proof.
  induction l as [|x l IH]; intros m H; [done|]. apply Forall_cons in H as [Hx H]. unfold add_names. cbn [fold_left].
  unfold add_name at 2. rewrite decide_True by done. by apply IH.
Qed.
Lemma add_names_all l : forall m, Forall (fun x : signal * bytes => x.2 <> []) l -> add_names l m = m ++ l.
Proof.
  induction l as [|[f n] l IH]; intros m H; [by rewrite app_nil_r|]. apply Forall_cons in H as [Hx H]. unfold add_names. cbn [fold_left].
  unfold add_name at 2. cbn [fst snd]. rewrite decide_False by done. etrans; [by apply IH|]. by rewrite <- app_assoc.
Qed.

Lemma aiger_round_trip nb s : (0 < nb)%nat -> clean s ->
  exists file d, write_aiger s = Some file /\ read_aiger nb file = Some (Some (d, [])) /\ reachable d /\
    npi d = npi s /\ npo d = npo s /\ length (ins d) = length (ins s) /\ length (outs d) = length (outs s) /\
    (forall env l, computes s env l <-> computes d env l) /\
    (wf s -> ks d = ks s /\ ins d = ins s /\ outs d = outs s).
Proof.
  intros Hnb C. destruct (aiger_read_back nb s Hnb C) as (pre & sigs & d & Hw & Hrd & Hr & Hnpi & Hnpo & Hins & Hlo & _ & Hc & Hst).
  exists (pre ++ [99]), d. split; [done|]. split.
  - rewrite (Hrd [99] _ (read_names_end _ _ _)); [|done| |done].
    + cbn [r_outs r_names]. rewrite add_names_nil; [done|]. apply Forall_lookup. intros k [f n] Hk.
      apply lookup_zip_with_Some in Hk as (f' & n' & [= <- <-] & _ & Hk). rewrite !map_lookup in Hk.
      destruct (outs s !! k); [|done]. by injection Hk as <-.
    + cbn [r_outs]. rewrite map_map. done.
  - do 3 (split; [done|]). split; [by rewrite Hins|]. done.
Qed.

(* ---------------- port names ---------------- *)
Lemma read_name_line fuel ni r r' line rst : plain line -> line <> [99] -> name_line ni line r = Some r' ->
  read_names (S fuel) ni r (live (line ++ nl :: rst)) = read_names fuel ni r' (live rst).
Proof.
  intros Hp Hc Hn. cbn [read_names]. rewrite getline_live by done. cbn [live failb]. rewrite decide_False by done. by rewrite Hn.
Qed.

Lemma match_name_ok c k n : match_name (c :: dec k ++ sp :: n) = Some (c, dec k, n).
Proof.
  cbn [match_name]. rewrite take_digits_app; [|apply dec_digit|by intros ? ? [= <- _]].
  rewrite decide_False by apply dec_nonnil. by rewrite decide_True.
Qed.

Lemma read_input_names inn : forall k fuel ni r rst, (forall i, (i < length inn)%nat -> r_sigs r !! S (k + i) = Some (Sig (S (k + i)) false)) ->
  N.of_nat (k + length inn) < 2 ^ 31 -> Forall nameable inn ->
  read_names (length inn + fuel) ni r (live (sym_lines 105 k inn ++ rst)) =
  read_names fuel ni (Rd (r_sigs r) (r_outs r) (r_lats r) (r_names r ++ zip (map (fun i => Sig i false) (seq (S k) (length inn))) inn)) (live rst).
Proof.
  induction inn as [|n inn IH]; intros k fuel ni r rst Hs Hk Hn.
  - cbn. rewrite app_nil_r. by destruct r.
  - apply Forall_cons in Hn as [[Hn1 Hn2] Hn]. cbn [length Nat.add sym_lines].
    replace ((105 :: dec (N.of_nat k) ++ sp :: n ++ nl :: sym_lines 105 (S k) inn) ++ rst) with
      ((105 :: dec (N.of_nat k) ++ sp :: n) ++ nl :: (sym_lines 105 (S k) inn ++ rst)).
    2: { rewrite <- !app_comm_cons, <- !app_assoc. cbn [app]. by rewrite <- app_assoc. }
    cbn [length] in Hk, Hs.
    rewrite (read_name_line _ _ _ (Rd (r_sigs r) (r_outs r) (r_lats r) (r_names r ++ [(Sig (S k) false, n)]))).
    + rewrite IH; [| |lia|done].
      * cbn [r_sigs r_outs r_lats r_names seq map zip zip_with length]. rewrite <- app_assoc. done.
      * intros i Hi. cbn [r_sigs]. replace (S k + i)%nat with (k + S i)%nat by lia. apply Hs. lia.
    + constructor; [done|]. apply Forall_app. split; [apply dec_plain|]. constructor; [by unfold sp|exact Hn2].
    + discriminate.
    + unfold name_line. rewrite match_name_ok. rewrite decide_True by (repeat constructor).
      rewrite atol_dec by lia. cbn [mbind option_bind]. rewrite decide_True by done. rewrite to_u32_small by lia.
      unfold on_input_name. rewrite u32_small by lia. replace (N.to_nat (1 + N.of_nat k)) with (S (k + 0))%nat by lia.
      rewrite Hs by lia. cbn [mbind option_bind]. unfold add_name. rewrite decide_False by done. by rewrite Nat.add_0_r.
Qed.

Lemma read_output_names outn : forall os0 os1 fuel ni r rst, r_outs r = os0 ++ os1 -> length os1 = length outn ->
  N.of_nat (length (r_outs r)) < 2 ^ 32 -> Forall nameable outn ->
  read_names (length outn + fuel) ni r (live (sym_lines 111 (length os0) outn ++ rst)) =
  read_names fuel ni (Rd (r_sigs r) (os0 ++ zip (map fst os1) outn) (r_lats r) (r_names r)) (live rst).
Proof.
  induction outn as [|n outn IH]; intros os0 os1 fuel ni r rst Ho Hl Hk Hn.
  - destruct os1; [|done]. cbn. rewrite <- Ho. by destruct r.
  - destruct os1 as [|[l0 n0] os1]; [done|]. apply Forall_cons in Hn as [[Hn1 Hn2] Hn]. cbn [length Nat.add sym_lines].
    set (k := length os0) in *.
    replace ((111 :: dec (N.of_nat k) ++ sp :: n ++ nl :: sym_lines 111 (S k) outn) ++ rst) with
      ((111 :: dec (N.of_nat k) ++ sp :: n) ++ nl :: (sym_lines 111 (S k) outn ++ rst)).
    2: { rewrite <- !app_comm_cons, <- !app_assoc. cbn [app]. by rewrite <- app_assoc. }
    assert (Hkk : N.of_nat k < 2 ^ 32). { rewrite Ho, app_length in Hk. fold k in Hk. cbn in Hk. lia. }
    rewrite (read_name_line _ _ _ (Rd (r_sigs r) ((os0 ++ [(l0, n)]) ++ os1) (r_lats r) (r_names r))).
    + assert (Hk1 : S k = length (os0 ++ [(l0, n)])) by (rewrite app_length; cbn; lia). rewrite Hk1.
      rewrite (IH _ os1); [|done|by injection Hl| |done].
      * cbn [r_sigs r_outs r_lats r_names map zip zip_with fst]. by rewrite <- app_assoc.
      * cbn [r_outs]. rewrite Ho in Hk. rewrite !app_length in *. cbn [length] in *. lia.
    + constructor; [done|]. apply Forall_app. split; [apply dec_plain|]. constructor; [by unfold sp|exact Hn2].
    + done.
    + unfold name_line. rewrite match_name_ok. rewrite decide_True by (repeat constructor).
      rewrite atol_dec by done. cbn [mbind option_bind]. do 2 rewrite decide_False by done. rewrite decide_True by done.
      rewrite to_u32_small by done. unfold on_output_name. rewrite Nat2N.id, Ho.
      rewrite list_lookup_middle by done. cbn [mbind option_bind]. f_equal. f_equal.
      rewrite (insert_app_r_alt os0) by lia. fold k. rewrite Nat.sub_diag. cbn. by rewrite <- app_assoc.
Qed.

Lemma names_of_app l l' f : names_of (l ++ l') f = names_of l f ++ names_of l' f.
Proof. unfold names_of. by rewrite filter_app, map_app. Qed.

Lemma names_of_zip L N f : length L = length N -> length (names_of (zip L N) f) = length (filter (eq f) L).
Proof.
  revert N. induction L as [|g L IH]; intros [|n N] Hl; try done. cbn [zip zip_with]. 
  unfold names_of. rewrite (filter_cons (eq f)). rewrite filter_cons. cbn [fst].
  destruct (decide (g = f)) as [->|Hne].
  - rewrite decide_True by done. cbn [map length]. f_equal. apply IH. by injection Hl.
  - rewrite decide_False by congruence. apply IH. by injection Hl.
Qed.

(* every signal is named once for each of its occurrences *)
Lemma port_names_all L1 N1 L2 : forall N2 L3 N3, length L1 = length N1 -> length L2 = length N2 ->
  port_names (zip L1 N1 ++ zip L2 N2 ++ zip L3 N3) L1 L2 = Some (map escape N2, L1 ++ L2).
Proof.
  revert L1 N1. induction L2 as [|f L2 IH]; intros L1 N1 [|n N2] L3 N3 H1 H2; try done.
  - cbn. by rewrite app_nil_r.
  - cbn [port_names]. set (m := zip L1 N1 ++ _).
    assert (Hm : names_of m f !! length (filter (eq f) L1) = Some n).
    { unfold m. rewrite names_of_app. rewrite <- (names_of_zip L1 N1 f H1). cbn [zip zip_with app].
      unfold names_of at 3. cbn [app]. rewrite filter_cons_True by done. cbn [map snd]. by rewrite list_lookup_middle. }
    destruct (names_of m f) as [|x l] eqn:Enm; [done|]. rewrite Hm. cbn [mbind option_bind].
    assert (Hmm : m = zip (L1 ++ [f]) (N1 ++ [n]) ++ zip L2 N2 ++ zip L3 N3).
    { unfold m. rewrite zip_with_app by done. cbn. by rewrite <- app_assoc. }
    rewrite Hmm, IH; [|by rewrite !app_length, H1|by injection H2]. cbn. by rewrite <- app_assoc.
Qed.

Lemma sym_lines_length c names : forall k, (length names <= length (sym_lines c k names))%nat.
Proof.
  induction names as [|n names IH]; intros k; [done|]. cbn [sym_lines length]. rewrite !app_length. cbn [length]. rewrite !app_length. cbn [length].
  specialize (IH (S k)). lia.
Qed.

Lemma names_round_trip nb s inn outn : (0 < nb)%nat -> clean s -> length inn = npi s -> length outn = npo s ->
  Forall nameable inn -> Forall nameable outn ->
  exists pre d, write_aiger s = Some (pre ++ [99]) /\
    reader nb (pre ++ sym_lines 105 0 inn ++ sym_lines 111 0 outn ++ [99]) = Some (Some (d, map escape inn, map escape outn)) /\
    reachable d /\ npi d = npi s /\ npo d = npo s /\ (forall env l, computes s env l <-> computes d env l).
Proof.
  intros Hnb C Hli Hlo' Hni Hno. destruct (aiger_read_back nb s Hnb C) as (pre & sigs & d & Hw & Hrd & Hr & Hnpi & Hnpo & Hins & Hlo & Hsig & Hc & Hst).
  exists pre, d. split; [done|]. split; [|done]. destruct (clean_pos s C) as (_ & Hpi & Hpo).
  set (tail := sym_lines 105 0 inn ++ sym_lines 111 0 outn ++ [99]).
  set (os := map (fun f => (N.of_nat (sdata f), @nil N)) (outs s)) in *.
  pose proof (clean_ins_lt s C). pose proof (cl_size _ C). pose proof (cl_outs _ C).
  set (r := Rd sigs (zip (map fst os) outn) [] (zip (map (fun i => Sig i false) (seq 1 (length inn))) inn)).
  assert (Hnm : read_names (S (S (S (length tail)))) (N.of_nat (length (ins s))) (Rd sigs os [] []) (live tail) = Some r).
  { assert (Hlen : exists x, S (S (S (length tail))) = (length inn + (length outn + S x))%nat).
    { exists (S (S (length tail)) - length inn - length outn)%nat. unfold tail. rewrite !app_length.
      pose proof (sym_lines_length 105 inn 0). pose proof (sym_lines_length 111 outn 0). cbn. lia. }
    destruct Hlen as [x ->]. unfold tail. rewrite read_input_names; [| |lia|done].
    - cbn [r_sigs r_outs r_lats r_names app]. rewrite (read_output_names outn [] os); [|done| | |done].
      + rewrite read_names_end. done.
      + unfold os. rewrite map_length. lia.
      + cbn [r_outs]. unfold os. rewrite map_length. lia.
    - intros i Hi. cbn [r_sigs]. apply Hsig. lia. }
  unfold reader. rewrite (Hrd tail r Hnm); [|done| |done].
  - cbn [mbind option_bind]. unfold r. cbn [r_outs r_names].
    assert (Hz : map snd (zip (map fst os) outn) = outn).
    { change (map snd) with (fmap (M := list) (@snd N bytes)). apply snd_zip. unfold os. rewrite !map_length. lia. }
    rewrite Hz. rewrite add_names_all.
    2: { apply Forall_lookup. intros k [f n] Hk. apply lookup_zip_with_Some in Hk as (f' & n' & [= <- <-] & _ & Hk).
         rewrite Forall_lookup in Hno. by destruct (Hno k n Hk). }
    rewrite Hins, (cl_ins _ C), <- Hpi, <- Hli. set (L := map _ (seq 1 _)).
    assert (HL : length L = length inn) by (unfold L; by rewrite map_length, seq_length).
    pose proof (port_names_all [] [] L inn (outs d) outn eq_refl HL) as P1. cbn [zip zip_with app] in P1.
    rewrite P1. cbn [mbind option_bind].
    pose proof (port_names_all L inn (outs d) outn [] [] HL ltac:(lia)) as P2. cbn [zip zip_with] in P2. rewrite app_nil_r in P2.
    rewrite P2. done.
  - unfold r. cbn [r_outs]. change (map fst) with (fmap (M := list) (@fst N bytes)). rewrite fst_zip.
    + unfold os. by rewrite <- list_fmap_compose.
    + unfold os. rewrite fmap_length, map_length. lia.
Qed.

(* ---------------- which networks are clean ---------------- *)
Lemma references_le s n : (references s n <= 2 * size s + length (outs s))%nat.
Proof.
  unfold references, size. 
  assert (H1 : forall l, (sum_list (map (gate_refs n) l) <= 2 * length l)%nat).
  { induction l as [|k l IH]; [done|]. cbn [map sum_list length]. 
    assert (gate_refs n k <= 2)%nat by (unfold gate_refs, count_sig; repeat case_decide; lia). cbn. fold (sum_list (map (gate_refs n) l)). lia. }
  assert (H2 : forall l, (sum_list (map (count_sig n) l) <= length l)%nat).
  { induction l as [|k l IH]; [done|]. cbn [map sum_list length]. 
    assert (count_sig n k <= 1)%nat by (unfold count_sig; repeat case_decide; lia). cbn. fold (sum_list (map (count_sig n) l)). lia. }
  specialize (H1 (ks s)). specialize (H2 (outs s)). lia.
Qed.

Lemma reachable_clean s : reachable s -> is_combinational s = true -> ins s = seq 1 (length (ins s)) ->
  N.of_nat (2 * size s + length (outs s)) < 2 ^ 31 -> clean s.
Proof.
  intros Hr Hc Hi Hs. pose proof (reachable_wf s Hr) as W. pose proof (wf_network s W) as Hnet.
  pose proof Hc as Hc'. unfold is_combinational in Hc'. apply bool_decide_eq_true in Hc' as [Hc1 Hc2].
  split; try done.
  - intros n m (a & b & E & Hn & Hab & Hm). destruct (wf_gate _ W n a b E Hab) as (? & ? & ?). destruct Hm; subst; lia.
  - intros n (a & b & E & _). apply never_dead; [done|by apply lookup_lt_Some in E|]. pose proof (references_le s n). lia.
  - rewrite (wf_ne _ W). set (I := length (ins s)) in *.
    assert (Hlt : (I < size s)%nat).
    { destruct (decide (I = 0)%nat); [pose proof (net_size s Hnet); lia|].
      pose proof (net_ins_valid s Hnet) as H. rewrite Forall_lookup in H.
      assert (ins s !! (I - 1)%nat = Some I) as H'; [|by apply H in H'].
      rewrite Hi. rewrite lookup_seq_lt by lia. f_equal. lia. }
    assert (Hg : ngates (ks s) = (size s - 1 - I)%nat).
    { unfold ngates. rewrite <- (take_drop (S I) (ks s)), filter_app, app_length.
      assert (filter (fun k : key => k.1 <> k.2) (take (S I) (ks s)) = []) as ->.
      { apply elem_of_nil_inv. intros [a b] H. apply elem_of_list_filter in H as [Hab H]. cbn in Hab.
        apply elem_of_list_lookup in H as [i H]. apply lookup_take_Some in H as [H Hi']. apply Hab.
        destruct i as [|i]; [rewrite (net_const s Hnet) in H; congruence|].
        destruct (net_in s Hnet i (S i)) as [_ H']; [rewrite Hi, lookup_seq_lt by lia; done|]. congruence. }
      assert (filter (fun k : key => k.1 <> k.2) (drop (S I) (ks s)) = drop (S I) (ks s)) as ->.
      { assert (Hall : Forall (fun k : key => k.1 <> k.2) (drop (S I) (ks s))).
        { apply Forall_lookup. intros i [a b] H. rewrite lookup_drop in H. cbn. intros ->.
          destruct (net_ci s Hnet _ _ H) as [?|Hin]; [lia|]. rewrite Hi in Hin. apply elem_of_seq in Hin. lia. }
        clear - Hall. induction Hall as [|k l Hk Hl IH]; [done|]. rewrite filter_cons_True by done. by rewrite IH. }
      rewrite drop_length. cbn. unfold size. lia. }
    rewrite Hg. unfold u64. rewrite N.mod_small by lia. done.
  - lia.
  - lia.
Qed.

Lemma clone_inputs_first nb s rdp leaves d : clone_inputs s rdp (aig_init_n nb) = Some (leaves, d) ->
  ins d = seq 1 (length (ins d)).
Proof.
  unfold clone_inputs. generalize (pis s) as l. intros l.
  assert (G : forall l leaves d0 d, mapM (fun n =>
    let! fs := lift (fanout_size s n) in
    if rdp && bool_decide (fs = 0%N) then ret (get_constant false) else create_pi) l d0 = Some (leaves, d) ->
    ins d0 = seq 1 (length (ins d0)) -> size d0 = S (length (ins d0)) -> ins d = seq 1 (length (ins d))).
  { clear l leaves d. induction l as [|n l IH]; intros leaves d0 d E H1 H2; cbn [mapM] in E.
    - unfold ret in E. by injection E as _ <-.
    - unfold bnd, lift in E. destruct (fanout_size s n) as [fs|]; [|done].
      destruct (rdp && bool_decide (fs = 0)).
      + unfold ret in E. destruct (mapM _ l d0) as [[r d1]|] eqn:E1; [|done]. injection E as _ <-. by eapply IH.
      + destruct (create_pi d0) as [[f d1]|] eqn:Ep; [|done].
        destruct (mapM _ l d1) as [[r d2]|] eqn:E1; [|done]. unfold ret in E. injection E as _ <-.
        unfold create_pi in Ep. cbn in Ep. injection Ep as _ <-. eapply IH; [exact E1| |]; cbn.
        * rewrite app_length, Nat.add_1_r, seq_S, <- H1. cbn. by rewrite <- H2.
        * unfold size in *. cbn. rewrite !app_length. cbn. lia. }
  intros E. by eapply G.
Qed.

Lemma cleanup_clean nb s rdp rrp d : (0 < nb)%nat -> network s -> cleanup_dangling nb s rdp rrp = Some d ->
  N.of_nat (2 * size d + length (outs d)) < 2 ^ 31 -> reachable d /\ clean d.
Proof.
  intros Hnb W Ecd Hsz.
  destruct (cleanup_dangling_spec nb s rdp rrp Hnb W) as (d' & ki & ko & m & leaves & d0 & Ecd' & Hr & _ & _ &
    Hli & Hnpi & Hlo & Hnpo & _). rewrite Ecd in Ecd'. injection Ecd' as <-. clear m leaves d0.
  split; [done|]. apply reachable_clean; [done| | |done].
  { unfold is_combinational. apply bool_decide_eq_true_2. lia. }
  unfold cleanup_dangling, cleanup_m in Ecd.
  pose proof (clone_inputs_spec nb s rdp Hnb W) as H0. apply wp_elim in H0 as (leaves & d0 & E0 & H0).
  destruct H0 as (Hr0 & Hv0 & Hl0 & Ho0 & Hnpo0 & Hnpi0 & Hks0 & _).
  pose proof (cleanup_impl_spec s d0 leaves W Hr0 Hv0 Hl0) as H1. apply wp_elim in H1 as (m & d1 & E1 & Hr1 & He1 & Hlm & Himg).
  pose proof (clone_outputs_spec s d1 m rrp Hr1) as H2.
  rewrite (ext_npi _ _ He1), (ext_ins _ _ He1), (ext_outs _ _ He1), (ext_npo _ _ He1) in H2.
  specialize (H2 Hnpi0 Ho0 Hnpo0).
  assert (Hpo : forall po, po ∈ pos s -> exists f, m !! sidx po = Some f /\ valid d1 f).
  { intros po Hpo. destruct (Himg (sidx po)) as (f & ? & ? & _); [by apply po_listed|]. by exists f. }
  specialize (H2 Hpo). apply wp_elim in H2 as (us & d2 & E2 & _ & _ & Hins & _).
  unfold bnd in Ecd. rewrite E0, E1, E2 in Ecd. cbn in Ecd. injection Ecd as <-. rewrite Hins.
  by eapply clone_inputs_first.
Qed.
