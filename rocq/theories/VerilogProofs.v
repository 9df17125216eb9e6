From Verif Require Import Base Verilog Aig Tt TtProofs Writers.
Local Open Scope string_scope.
Local Open Scope list_scope.
Local Open Scope nat_scope.

(* ---------- strings ---------- *)
Lemma sapp_cons x (a b : string) : String x a +:+ b = String x (a +:+ b).
Proof. done. Qed.
Lemma snil_app (b : string) : "" +:+ b = b.
Proof. done. Qed.
Lemma sapp_assoc (a b c : string) : (a +:+ b) +:+ c = a +:+ (b +:+ c).
Proof. induction a as [|x a IH]; [done|]. rewrite !sapp_cons. by rewrite IH. Qed.
Lemma sapp_nil (a : string) : a +:+ "" = a.
Proof. induction a as [|x a IH]; [done|]. rewrite !sapp_cons. by rewrite IH. Qed.
Lemma chars_cons x a : word_chars (String x a) = x :: word_chars a.
Proof. done. Qed.
Lemma chars_app a b : word_chars (a +:+ b) = word_chars a ++ word_chars b.
Proof. induction a as [|x a IH]; [done|]. rewrite sapp_cons, !chars_cons, IH. done. Qed.

Lemma srev_srev s : forall a b, srev a (srev b s) = srev (s +:+ a) b.
Proof. induction s as [|c s IH]; intros a b; [done|]. cbn [srev]. by rewrite IH. Qed.
Lemma srev2 s : srev "" (srev "" s) = s.
Proof. rewrite srev_srev. cbn. apply sapp_nil. Qed.
Lemma srev_nonnil s : forall w, w <> "" -> srev w s <> "".
Proof. induction s as [|c s IH]; intros w H; [done|]. cbn. by apply IH. Qed.

(* ---------- lexing ---------- *)
Notation lx := (lex false "").
Definition wordy (p : string) : Prop := p <> "" /\ Forall (fun c => is_wordc c = true) (word_chars p).

Lemma lex_go p : forall w r, Forall (fun c => is_wordc c = true) (word_chars p) -> lex false w (p +:+ r) = lex false (srev w p) r.
Proof.
  induction p as [|c p IH]; intros w r H; [done|]. rewrite chars_cons in H. apply Forall_cons in H as [Hc H].
  rewrite sapp_cons. cbn [lex srev]. rewrite Hc. by apply IH.
Qed.
Lemma lex_flush w c r : is_wordc c = false -> lex false w (String c r) = flush w ++ lx (String c r).
Proof.
  intros H. cbn [lex]. rewrite H. destruct (is_ws c); [cbn [flush app]; done|]. destruct (Ascii.eqb c "\"); done.
Qed.
Lemma lx_word p c r : wordy p -> is_wordc c = false -> lx (p +:+ String c r) = Word p :: lx (String c r).
Proof.
  intros [Hne Hp] Hc. rewrite lex_go by done. rewrite lex_flush by done.
  assert (srev "" p <> "") as Hs. { destruct p as [|x p]; [done|]. cbn. by apply srev_nonnil. }
  rewrite <- (srev2 p) at 2. by destruct (srev "" p).
Qed.
Lemma lx_ws c r : is_wordc c = false -> is_ws c = true -> lx (String c r) = lx r.
Proof. intros H1 H2. cbn [lex]. by rewrite H1, H2. Qed.
Lemma lx_sym c r : is_wordc c = false -> is_ws c = false -> Ascii.eqb c "\" = false -> lx (String c r) = Sym c :: lx r.
Proof. intros H1 H2 H3. cbn [lex]. by rewrite H1, H2, H3. Qed.
Lemma lex_esc d : forall w r, Forall (fun c => is_ws c = false) (word_chars d) -> lex true w (d +:+ r) = lex true (srev w d) r.
Proof.
  induction d as [|c d IH]; intros w r H; [done|]. rewrite chars_cons in H. apply Forall_cons in H as [Hc H].
  rewrite sapp_cons. cbn [lex srev]. rewrite Hc. by apply IH.
Qed.
Lemma lx_esc d r : Forall (fun c => is_ws c = false) (word_chars d) -> lx (String "\" (d +:+ String " " r)) = Esc d :: lx r.
Proof. intros H. change (lx (String "\" (d +:+ String " " r))) with (lex true "" (d +:+ String " " r)). rewrite lex_esc by done. cbn [lex]. change (is_ws " ") with true. cbn iota. by rewrite srev2. Qed.

(* the token of an identifier *)
Definition itok (p : string) : token := match lx p with t :: _ => t | [] => Sym " " end.
Lemma simple_wordy d : simple_ident d = true -> wordy d.
Proof.
  unfold simple_ident, wordy. intros [H _]%andb_prop. destruct d as [|c d]; [done|]. split; [done|].
  rewrite chars_cons in *. apply andb_prop in H as [H1 H2]. constructor.
  - unfold is_wordc. apply orb_prop in H1 as [->| ->]; [done|]. by rewrite !orb_true_r.
  - rewrite Forall_forall. intros x Hx. rewrite forallb_forall in H2. specialize (H2 x). unfold is_wordc.
    rewrite H2; [done|]. by apply elem_of_list_In.
Qed.
Lemma itok_spec p d : ident_text p d ->
  ident (itok p) = Some d /\ forall c r, is_wordc c = false -> lx (p +:+ String c r) = itok p :: lx (String c r).
Proof.
  intros [[-> Hs]|(-> & Hne & Hw)].
  - assert (itok d = Word d) as E.
    { unfold itok. pose proof (simple_wordy d Hs) as [Hn Hd]. rewrite <- (sapp_nil d) at 1. rewrite lex_go by done. cbn [lex].
      assert (srev "" d <> "") as Hr. { destruct d as [|x p]; [done|]. cbn. by apply srev_nonnil. }
      rewrite <- (srev2 d) at 2. by destruct (srev "" d). }
    rewrite E. cbn [ident]. rewrite Hs. split; [done|]. intros c r Hc. apply lx_word; [by apply simple_wordy|done].
  - assert (itok (String "\" d +:+ " ") = Esc d) as E.
    { unfold itok. rewrite sapp_cons. by rewrite lx_esc. }
    rewrite E. cbn [ident]. rewrite decide_False by done. split; [done|]. intros c r Hc.
    rewrite sapp_assoc, sapp_cons. change (" " +:+ String c r) with (String " " (String c r)). by rewrite lx_esc.
Qed.
Lemma itok_word p d w : ident_text p d -> itok p = Word w -> w ∉ keywords.
Proof.
  intros H E. destruct (itok_spec p d H) as [Hi _]. rewrite E in Hi. cbn in Hi.
  destruct (simple_ident w) eqn:Hs; [|done]. unfold simple_ident in Hs. apply andb_prop in Hs as [_ Hs].
  apply negb_true_iff, bool_decide_eq_false in Hs. done.
Qed.

(* text that leaves the lexer between tokens *)
Definition clean (a : string) (ts : list token) : Prop := forall b, lx (a +:+ b) = ts ++ lx b.
Lemma clean_nil : clean "" [].
Proof. done. Qed.
Lemma clean_app a b ta tb : clean a ta -> clean b tb -> clean (a +:+ b) (ta ++ tb).
Proof. intros Ha Hb r. rewrite sapp_assoc, Ha, Hb. by rewrite app_assoc. Qed.
Lemma clean_cats {A} (f : A -> string) (g : A -> list token) l : (forall x, x ∈ l -> clean (f x) (g x)) ->
  clean (cats (map f l)) (flat_map g l).
Proof.
  induction l as [|x l IH]; intros H; [apply clean_nil|]. cbn. apply clean_app; [apply H; left|].
  apply IH. intros y Hy. apply H. by right.
Qed.
Lemma clean_ws c : is_wordc c = false -> is_ws c = true -> clean (String c "") [].
Proof. intros H1 H2 b. rewrite sapp_cons, lx_ws; done. Qed.

Ltac lxs := repeat first
  [ rewrite lx_ws by reflexivity
  | rewrite lx_sym by reflexivity ].

(* ---------- numerals ---------- *)
Lemma digit_digit n : n < 10 -> is_digit (digit n) = true.
Proof. intros H. do 10 (destruct n as [|n]; [reflexivity|]). lia. Qed.
Lemma digit_code n : n < 10 -> code (digit n) - code "0" = n.
Proof. intros H. do 10 (destruct n as [|n]; [reflexivity|]). lia. Qed.
Lemma dec_go_chars f : forall n acc, Forall (fun c => is_digit c = true) (word_chars acc) ->
  Forall (fun c => is_digit c = true) (word_chars (dec_go f n acc)).
Proof.
  induction f as [|f IH]; intros n acc H; [done|]. cbn [dec_go].
  assert (Forall (fun c => is_digit c = true) (word_chars (String (digit (n mod 10)) acc))).
  { rewrite chars_cons. constructor; [|done]. apply digit_digit. apply Nat.mod_upper_bound. lia. }
  destruct (decide _); [done|]. by apply IH.
Qed.
Lemma sdec_digits n : Forall (fun c => is_digit c = true) (word_chars (sdec n)).
Proof. apply dec_go_chars. constructor. Qed.
Lemma dec_go_undec f : forall n acc r, n < f -> undec 0 (dec_go f n acc +:+ r) = undec n (acc +:+ r).
Proof.
  induction f as [|f IH]; intros n acc r H; [lia|]. cbn [dec_go].
  pose proof (Nat.mod_upper_bound n 10 ltac:(lia)) as Hm. pose proof (Nat.div_mod n 10 ltac:(lia)) as Hd.
  destruct (decide _) as [E|E].
  - rewrite sapp_cons. cbn [undec]. rewrite digit_digit, digit_code by done. f_equal. lia.
  - rewrite IH by lia. rewrite sapp_cons. cbn [undec]. rewrite digit_digit, digit_code by done. f_equal. lia.
Qed.
Lemma undec_stop v r : (match r with String c _ => is_digit c = false | _ => True end) -> undec v r = (v, r).
Proof. destruct r as [|c r]; [done|]. intros H. cbn [undec]. by rewrite H. Qed.
Lemma undec_sdec n r : (match r with String c _ => is_digit c = false | _ => True end) -> undec 0 (sdec n +:+ r) = (n, r).
Proof. intros H. unfold sdec. rewrite dec_go_undec by lia. by apply undec_stop. Qed.
Lemma sdec_cons n : exists c r, sdec n = String c r /\ is_digit c = true.
Proof.
  pose proof (sdec_digits n) as H. destruct (sdec n) as [|c r] eqn:E.
  - exfalso. pose proof (undec_sdec n "a" eq_refl) as H1. rewrite E in H1. vm_compute in H1.
    assert (n = 0) by congruence. subst n. discriminate E.
  - exists c, r. split; [done|]. rewrite chars_cons in H. by apply Forall_cons in H as [H _].
Qed.
Lemma digit_wordc c : is_digit c = true -> is_wordc c = true.
Proof. unfold is_wordc. intros ->. by rewrite orb_true_r. Qed.
Lemma sdec_inj a b r1 r2 : (match r1 with String c _ => is_digit c = false | _ => True end) ->
  (match r2 with String c _ => is_digit c = false | _ => True end) -> sdec a +:+ r1 = sdec b +:+ r2 -> a = b.
Proof. intros H1 H2 E. pose proof (undec_sdec a r1 H1) as A. pose proof (undec_sdec b r2 H2) as B. rewrite E in A. congruence. Qed.
Lemma simple_dec c a n b : is_letter c || Ascii.eqb c "_" = true ->
  forallb (fun c => is_letter c || is_digit c || Ascii.eqb c "_" || Ascii.eqb c "$") (word_chars a) = true ->
  forallb (fun c => is_letter c || is_digit c || Ascii.eqb c "_" || Ascii.eqb c "$") (word_chars b) = true ->
  String c (a +:+ sdec n +:+ b) ∉ keywords -> simple_ident (String c (a +:+ sdec n +:+ b)) = true.
Proof.
  intros Hc Ha Hb Hk. unfold simple_ident. rewrite chars_cons, Hc, bool_decide_false by done. cbn. rewrite andb_true_r.
  rewrite !chars_app, !forallb_app, Ha, Hb. cbn. rewrite andb_true_r. rewrite forallb_forall. intros x Hx.
  pose proof (sdec_digits n) as H. rewrite Forall_forall in H. rewrite H by (by apply elem_of_list_In).
  by rewrite orb_true_r.
Qed.
Ltac not_kw := rewrite !not_elem_of_cons; repeat split; try (by apply not_elem_of_nil); discriminate.
Lemma wire_ident n : simple_ident (wire_name n) = true.
Proof. unfold wire_name. apply (simple_dec "_" "w" n "_"); [done..|]. unfold keywords. not_kw. Qed.
Lemma wire_inj a b : wire_name a = wire_name b -> a = b.
Proof. unfold wire_name. intros E. injection E as E. by apply (sdec_inj a b "_" "_"). Qed.
Lemma lut_pi_ident n : simple_ident ("_i" +:+ sdec n +:+ "_") = true.
Proof. apply (simple_dec "_" "i" n "_"); [done..|]. unfold keywords. not_kw. Qed.
Lemma lut_po_ident n : simple_ident ("_o" +:+ sdec n +:+ "_") = true.
Proof. apply (simple_dec "_" "o" n "_"); [done..|]. unfold keywords. not_kw. Qed.
Lemma name_ident n : simple_ident ("name" +:+ sdec n) = true.
Proof. rewrite <- (sapp_nil (sdec n)). apply (simple_dec "n" "ame" n ""); [done..|]. unfold keywords. not_kw. Qed.
Lemma x_ident n : simple_ident ("x" +:+ sdec n) = true.
Proof. rewrite <- (sapp_nil (sdec n)). apply (simple_dec "x" "" n ""); [done..|]. unfold keywords. not_kw. Qed.
Lemma y_ident n : simple_ident ("y" +:+ sdec n) = true.
Proof. rewrite <- (sapp_nil (sdec n)). apply (simple_dec "y" "" n ""); [done..|]. unfold keywords. not_kw. Qed.
Lemma gate_ident n : simple_ident (gate_name n) = true.
Proof. unfold gate_name. rewrite <- (sapp_nil (sdec n)). apply (simple_dec "n" "" n ""); [done..|]. unfold keywords. not_kw. Qed.
Lemma sdec_inj0 a b : sdec a = sdec b -> a = b.
Proof. intros E. apply (sdec_inj a b "" ""); [done..|]. by rewrite E. Qed.
Lemma gate_inj a b : gate_name a = gate_name b -> a = b.
Proof. unfold gate_name. intros E. injection E as E. by apply sdec_inj0. Qed.

Lemma lut_arity_dec k : lut_arity ("LUT" +:+ sdec k) = Some k.
Proof.
  destruct (sdec_cons k) as (c & r & E & _). pose proof (undec_sdec k "" I) as H. rewrite sapp_nil in H.
  change ("LUT" +:+ sdec k) with (String "L" (String "U" (String "T" (sdec k)))). unfold lut_arity.
  rewrite H, E. done.
Qed.

(* ---------- hexadecimal digits ---------- *)
Lemma hexval_digit n : n < 16 -> hexval (hexdigit n) = Some (N.of_nat n).
Proof. intros H. do 16 (destruct n as [|n]; [reflexivity|]). lia. Qed.
Lemma hexdigit_word n : n < 16 -> is_wordc (hexdigit n) = true.
Proof. intros H. do 16 (destruct n as [|n]; [reflexivity|]). lia. Qed.
Lemma b2n_le b : Nat.b2n b <= 1.
Proof. destruct b; cbn; lia. Qed.
Lemma nibble_lt f j : nibble f j < 16.
Proof.
  unfold nibble. pose proof (b2n_le (get_bit f (4 * j))). pose proof (b2n_le (get_bit f (4 * j + 1))).
  pose proof (b2n_le (get_bit f (4 * j + 2))). pose proof (b2n_le (get_bit f (4 * j + 3))). lia.
Qed.
Lemma hex_chunk_S f k : hex_chunk f (S k) = String (hexdigit (nibble f k)) (hex_chunk f k).
Proof. unfold hex_chunk. rewrite seq_S, rev_app_distr. done. Qed.
Lemma nibble_value f j v : (16 * v + N.of_nat (nibble f j) =
  2 * (2 * (2 * (2 * v + N.b2n (get_bit f (4 * j + 3))) + N.b2n (get_bit f (4 * j + 2))) + N.b2n (get_bit f (4 * j + 1))) + N.b2n (get_bit f (4 * j)))%N.
Proof.
  unfold nibble. destruct (get_bit f (4 * j)), (get_bit f (4 * j + 1)), (get_bit f (4 * j + 2)), (get_bit f (4 * j + 3)); cbn [Nat.b2n N.b2n]; lia.
Qed.
Lemma testbit_two a b i : N.testbit (2 * a + N.b2n b) i = if decide (i = 0%N) then b else N.testbit a (N.pred i).
Proof.
  destruct (decide (i = 0%N)) as [->|H]; [apply N.testbit_0_r|].
  rewrite <- (N.succ_pred i H) at 1. apply N.testbit_succ_r.
Qed.
Lemma unhex_chunk f k : forall v, exists w, unhex v (hex_chunk f k) = Some w /\
  forall i, N.testbit w i = if decide (i < 4 * N.of_nat k)%N then get_bit f (N.to_nat i) else N.testbit v (i - 4 * N.of_nat k).
Proof.
  induction k as [|k IH]; intros v.
  - exists v. split; [done|]. intros i. rewrite decide_False by lia. f_equal. lia.
  - rewrite hex_chunk_S. cbn [unhex]. rewrite hexval_digit by apply nibble_lt. cbn [mbind option_bind].
    destruct (IH (16 * v + N.of_nat (nibble f k))%N) as (w & E & H). exists w. split; [done|]. intros i. rewrite H.
    destruct (decide (i < 4 * N.of_nat k)%N) as [L|L]; [rewrite decide_True by lia; done|].
    rewrite nibble_value, !testbit_two.
    destruct (decide (i - 4 * N.of_nat k = 0)%N) as [Q|Q]; [rewrite decide_True by lia; f_equal; lia|].
    destruct (decide (N.pred (i - 4 * N.of_nat k) = 0)%N) as [Q1|Q1]; [rewrite decide_True by lia; f_equal; lia|].
    destruct (decide (N.pred (N.pred (i - 4 * N.of_nat k)) = 0)%N) as [Q2|Q2]; [rewrite decide_True by lia; f_equal; lia|].
    destruct (decide (N.pred (N.pred (N.pred (i - 4 * N.of_nat k))) = 0)%N) as [Q3|Q3]; [rewrite decide_True by lia; f_equal; lia|].
    rewrite decide_False by lia. f_equal. lia.
Qed.
Lemma hex_digits_ge n : 2 ^ n <= 4 * hex_digits n.
Proof.
  unfold hex_digits. destruct (decide (n <= 1)) as [H|H]; [destruct n as [|[|n]]; cbn; lia|].
  replace n with (2 + (n - 2)) by lia. rewrite Nat.pow_add_r. change (2 ^ 2) with 4.
  rewrite (Nat.mul_comm 4), Nat.div_mul by lia. lia.
Qed.
Lemma hex_digits_pos n : exists k, hex_digits n = S k.
Proof. pose proof (hex_digits_ge n). pose proof (Nat.pow_nonzero 2 n ltac:(lia)). destruct (hex_digits n) as [|k]; [lia|by exists k]. Qed.
Lemma init_number k f : tt_wf f -> nv f = k -> exists v, number (sdec (2 ^ k) +:+ "'h" +:+ to_hex f) = Some (2 ^ k, v) /\
  forall i, N.testbit v i = get_bit f (N.to_nat i).
Proof.
  intros Hw Hn. unfold to_hex. destruct (unhex_chunk f (hex_digits (nv f)) 0%N) as (v & E & H). exists v. split.
  - pose proof (undec_sdec (2 ^ k) ("'h" +:+ hex_chunk f (hex_digits (nv f))) eq_refl) as Hu.
    destruct (sdec_cons (2 ^ k)) as (c & r & Ec & Hc). unfold number.
    destruct (sdec (2 ^ k) +:+ "'h" +:+ hex_chunk f (hex_digits (nv f))) as [|c' r'] eqn:Es; [by rewrite Ec in Es|].
    assert (c' = c) as ->. { rewrite Ec in Es. rewrite sapp_cons in Es. congruence. }
    rewrite Hc, Hu. change ("'h" +:+ hex_chunk f (hex_digits (nv f))) with (String "'" (String "h" (hex_chunk f (hex_digits (nv f))))).
    cbn iota beta. change (Ascii.eqb "'" "'") with true. change (Ascii.eqb "h" "h") with true. rewrite E.
    destruct (hex_digits_pos (nv f)) as [j Hj]. rewrite Hj, hex_chunk_S. done.
  - intros i. rewrite H. destruct (decide _) as [L|L]; [done|]. rewrite N.bits_0.
    unfold get_bit. rewrite nth_overflow; [done|]. rewrite Hw. pose proof (hex_digits_ge (nv f)). lia.
Qed.
Lemma hex_chunk_word f k : Forall (fun c => is_wordc c = true) (word_chars (hex_chunk f k)).
Proof. induction k as [|k IH]; [constructor|]. rewrite hex_chunk_S, chars_cons. constructor; [apply hexdigit_word, nibble_lt|done]. Qed.

(* ---------- parsing ---------- *)
Fixpoint commas (l : list token) : list token :=
  match l with [] => [] | [t] => [t] | t :: r => t :: Sym "," :: commas r end.
Lemma p_ids_commas ts : forall ds r, ts <> [] -> Forall2 (fun t d => ident t = Some d) ts ds -> head r <> Some (Sym ",") ->
  p_ids (commas ts ++ r) = Some (ds, r).
Proof.
  induction ts as [|t ts IH]; intros ds r Hn H Hr; [done|]. inversion H as [|? d ? ds' Ht Hts]; subst.
  destruct ts as [|t' ts].
  - inversion Hts; subst. cbn [commas app p_ids]. rewrite Ht. cbn [mbind option_bind].
    destruct r as [|[s|s|c] r]; [done..|]. cbn in Hr.
    destruct (decide (c = ","%char)) as [->|Hc]; [done|].
    destruct c as [[] [] [] [] [] [] [] []]; done.
  - change (commas (t :: t' :: ts)) with (t :: Sym "," :: commas (t' :: ts)). cbn [app p_ids]. rewrite Ht. cbn [mbind option_bind].
    rewrite (IH ds' r); [done|done|done|done].
Qed.

Definition item_toks (ts : list token) (i : list item) : Prop :=
  length i <= length ts /\
  forall r rest n, p_items n r = Some rest -> p_items (length i + n) (ts ++ r) = Some (i ++ rest).
Lemma items_nil : item_toks [] [].
Proof. done. Qed.
Lemma items_app t1 t2 i1 i2 : item_toks t1 i1 -> item_toks t2 i2 -> item_toks (t1 ++ t2) (i1 ++ i2).
Proof.
  intros [L1 H1] [L2 H2]. split; [rewrite !app_length; lia|]. intros r rest n H.
  rewrite <- !app_assoc, app_length, <- Nat.add_assoc. apply H1, H2, H.
Qed.
Lemma items_one ts i w t : ts = Word w :: t -> w <> "endmodule" -> (forall r, p_item (ts ++ r) = Some (i, r)) -> item_toks ts [i].
Proof.
  intros -> Hw Hp. split; [cbn; lia|]. intros r rest n H. cbn [length Nat.add app p_items]. rewrite decide_False by done.
  specialize (Hp r). cbn [app] in Hp. rewrite Hp. cbn [mbind option_bind fst snd]. by rewrite H.
Qed.
Lemma items_flat {A} (f : A -> list token) (g : A -> list item) l : (forall x, x ∈ l -> item_toks (f x) (g x)) ->
  item_toks (flat_map f l) (flat_map g l).
Proof.
  induction l as [|x l IH]; intros H; [apply items_nil|]. cbn [flat_map]. apply items_app; [apply H; left|].
  apply IH. intros y Hy. apply H. by right.
Qed.
(* more fuel than needed is harmless *)
Lemma p_items_fuel n : forall m l r, p_items n l = Some r -> n <= m -> p_items m l = Some r.
Proof.
  induction n as [|n IH]; intros m l r H Hm; [done|]. destruct m as [|m]; [lia|]. cbn [p_items] in *.
  destruct l as [|[w|w|c] l]; try done. destruct (decide _); [done|].
  destruct (p_item _) as [[i l']|]; [|done]. cbn [mbind option_bind fst snd] in *.
  destruct (p_items n l') as [y|] eqn:E; [|done]. rewrite (IH m l' y E) by lia. done.
Qed.

Section decls.
  Context (ps ds : list string).
  Context (H : Forall2 ident_text ps ds).
  Lemma toks_idents : Forall2 (fun t d => ident t = Some d) (map itok ps) ds.
  Proof using H. rewrite Forall2_fmap_l. eapply Forall2_impl; [exact H|]. intros p d Hp. by apply itok_spec. Qed.
End decls.
Lemma p_list_spec f ts ds r : ts <> [] -> Forall2 (fun t d => ident t = Some d) ts ds ->
  p_list f (commas ts ++ Sym ";" :: r) = Some (f ds, r).
Proof. intros Hn H. unfold p_list. rewrite (p_ids_commas ts ds); done. Qed.
