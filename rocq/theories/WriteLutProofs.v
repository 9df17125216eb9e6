From Verif Require Import Base Verilog Aig Tt TtProofs TtCache Clean Aiger Klut KlutSem KlutProofs Cnf CnfProofs Mapping Writers VerilogProofs.
Local Open Scope string_scope.
Local Open Scope list_scope.
Local Open Scope nat_scope.

(* ---------- lexing of the pieces ---------- *)
Definition sep (k : string) : Prop := match k with String c _ => is_wordc c = false | _ => False end.
Lemma lx_wordk w k r : wordy w -> sep k -> lx (w +:+ k +:+ r) = Word w :: lx (k +:+ r).
Proof. intros Hw Hk. destruct k as [|c k]; [done|]. rewrite sapp_cons. by apply lx_word. Qed.
Lemma lx_id p d k r : ident_text p d -> sep k -> lx (p +:+ k +:+ r) = itok p :: lx (k +:+ r).
Proof. intros Hp Hk. destruct k as [|c k]; [done|]. rewrite sapp_cons. by apply (proj2 (itok_spec p d Hp)). Qed.
Lemma simple_text d : simple_ident d = true -> ident_text d d.
Proof. by left. Qed.
Lemma lx_tab r : lx (tab +:+ r) = lx r. Proof. reflexivity. Qed.
Lemma lx_nl r : lx (nl +:+ r) = lx r. Proof. reflexivity. Qed.
Lemma lx_sp r : lx (" " +:+ r) = lx r. Proof. reflexivity. Qed.
Lemma lx_semi r : lx (" ;" +:+ r) = Sym ";" :: lx r. Proof. reflexivity. Qed.
Lemma lx_semi' r : lx (";" +:+ r) = Sym ";" :: lx r. Proof. reflexivity. Qed.
Lemma lx_comma r : lx ("," +:+ r) = Sym "," :: lx r. Proof. reflexivity. Qed.
Lemma lx_csp r : lx (", " +:+ r) = Sym "," :: lx r. Proof. reflexivity. Qed.
Lemma lx_open r : lx (" (" +:+ r) = Sym "(" :: lx r. Proof. reflexivity. Qed.
Lemma lx_close r : lx (");" +:+ r) = Sym ")" :: Sym ";" :: lx r. Proof. reflexivity. Qed.
Lemma lx_init r : lx (".INIT = " +:+ r) = Sym "." :: Word "INIT" :: Sym "=" :: lx r. Proof. reflexivity. Qed.
Lemma lx_assign r : lx ("assign " +:+ r) = Word "assign" :: lx r. Proof. reflexivity. Qed.
Lemma lx_defparam r : lx ("defparam " +:+ r) = Word "defparam" :: lx r. Proof. reflexivity. Qed.
Lemma lx_eq r : lx (" = " +:+ r) = Sym "=" :: lx r. Proof. reflexivity. Qed.
Lemma lx_module r : lx ("module top (" +:+ r) = Word "module" :: Word "top" :: Sym "(" :: lx r. Proof. reflexivity. Qed.

Lemma clean_decl kind p d : wordy kind -> ident_text p d -> clean (decl kind p) [Word kind; itok p; Sym ";"].
Proof.
  intros Hk Hp b. unfold decl. rewrite !sapp_assoc, lx_tab, lx_wordk, lx_sp by done.
  rewrite (lx_id p d) by done. by rewrite lx_semi, lx_nl.
Qed.
Lemma flat_commas {A} (f : A -> token) l t : flat_map (fun x => [f x; Sym ","]) l ++ [t] = commas (map f l ++ [t]).
Proof.
  induction l as [|x l IH]; [done|]. cbn [flat_map map app]. rewrite IH. by destruct l.
Qed.
Lemma commas_flat {A} (f : A -> token) t l : commas (t :: map f l) = t :: flat_map (fun x => [Sym ","; f x]) l.
Proof. revert t. induction l as [|x l IH]; intros t; [done|]. cbn [map]. cbn [flat_map app]. rewrite <- IH. done. Qed.

Definition lut_toks (l : lut) : list token :=
  [Word ("LUT" +:+ sdec (length (l_fan l))); itok (lut_name l); Sym "("] ++
  commas (map itok (l_fan l) ++ [itok (wire_name (l_node l))]) ++ [Sym ")"; Sym ";"] ++
  [Word "defparam"; itok (lut_name l); Sym "."; Word "INIT"; Sym "=";
   Word (sdec (2 ^ length (l_fan l)) +:+ "'h" +:+ to_hex (l_fn l)); Sym ";"].
Lemma digits_wordy c n : Forall (fun c => is_wordc c = true) (word_chars c) -> wordy (c +:+ sdec n).
Proof.
  intros Hc. split.
  - destruct (sdec_cons n) as (x & r & E & _). rewrite E. destruct c; done.
  - rewrite chars_app. apply Forall_app. split; [done|]. eapply Forall_impl; [apply sdec_digits|]. intros. by apply digit_wordc.
Qed.
Lemma clean_lut l ds : Forall2 ident_text (l_fan l) ds -> clean (lut_text l) (lut_toks l).
Proof.
  intros Hf b. unfold lut_text, lut_toks.
  assert (Hn : ident_text (lut_name l) (lut_name l)) by apply simple_text, name_ident.
  assert (Hw : ident_text (wire_name (l_node l)) (wire_name (l_node l))) by apply simple_text, wire_ident.
  rewrite !sapp_assoc, lx_tab. rewrite <- (sapp_assoc "LUT"). rewrite lx_wordk, lx_sp; [|by apply digits_wordy; repeat constructor|done].
  rewrite (lx_id _ _ _ _ Hn), lx_open, lx_nl by done.
  assert (Hc : clean (cats (map (fun f => tab +:+ tab +:+ f +:+ "," +:+ nl) (l_fan l))) (flat_map (fun f => [itok f; Sym ","]) (l_fan l))).
  { apply clean_cats. intros p Hp b'. apply elem_of_list_lookup in Hp as [i Hi].
    destruct (Forall2_lookup_l _ _ _ _ _ Hf Hi) as (d & _ & Hd).
    rewrite !sapp_assoc, !lx_tab. rewrite (lx_id p d), lx_comma, lx_nl by done. done. }
  rewrite Hc, !lx_tab. rewrite (lx_id _ _ _ _ Hw), lx_nl, lx_tab, lx_close, lx_nl, lx_tab, lx_defparam by done.
  rewrite (lx_id _ _ _ _ Hn), lx_init by done.
  rewrite <- (sapp_assoc "'h"), <- (sapp_assoc (sdec _)).
  rewrite lx_wordk; [|split|done].
  - rewrite lx_semi', !lx_nl. rewrite <- flat_commas. cbn [app]. do 3 f_equal. rewrite <- !app_assoc. done.
  - destruct (sdec_cons (2 ^ length (l_fan l))) as (x & r & E & _). by rewrite E.
  - rewrite !chars_app. apply Forall_app. split; [eapply Forall_impl; [apply sdec_digits|]; intros; by apply digit_wordc|].
    apply Forall_app. split; [repeat constructor|]. apply hex_chunk_word.
Qed.

(* ---------- parsing of the pieces ---------- *)
Definition initv (f : tt) : N := default 0%N (unhex 0 (to_hex f)).
Lemma init_value k f : tt_wf f -> nv f = k -> Verilog.number (sdec (2 ^ k) +:+ "'h" +:+ to_hex f) = Some (2 ^ k, initv f) /\
  forall i, N.testbit (initv f) i = get_bit f (N.to_nat i).
Proof.
  intros Hw Hn. destruct (init_number k f Hw Hn) as (v & E & H). unfold initv.
  destruct (unhex_chunk f (hex_digits (nv f)) 0%N) as (w & Ew & Hw').
  assert (v = w) as ->.
  { apply N.bits_inj_iff. intros i. rewrite H, Hw'. destruct (decide _) as [L|L]; [done|]. rewrite N.bits_0.
    unfold get_bit. rewrite nth_overflow; [done|]. rewrite Hw. pose proof (hex_digits_ge (nv f)). lia. }
  unfold to_hex in *. rewrite Ew. cbn [default]. done.
Qed.
Lemma lut_not_kw k w : In w keywords -> "LUT" +:+ sdec k <> w.
Proof.
  intros H. rewrite sapp_cons. unfold keywords in H. cbn [In] in H.
  repeat (destruct H as [<-|H]; [discriminate|]). done.
Qed.
Lemma items_decl kind f p d : (kind = "input" /\ f = IIn) \/ (kind = "output" /\ f = IOut) \/ (kind = "wire" /\ f = IWire) ->
  ident_text p d -> item_toks [Word kind; itok p; Sym ";"] [f [d]].
Proof.
  intros Hk Hp. eapply items_one; [done| |].
  - destruct Hk as [[-> _]|[[-> _]|[-> _]]]; done.
  - intros r. cbn [app]. assert (E : forall g, p_list g (itok p :: Sym ";" :: r) = Some (g [d], r)).
    { intros g. apply (p_list_spec g [itok p] [d]); [done|]. constructor; [|done]. by apply itok_spec. }
    destruct Hk as [[-> ->]|[[-> ->]|[-> ->]]]; cbn [p_item]; repeat (rewrite decide_False by done); rewrite decide_True by done; apply E.
Qed.
Lemma items_decls kind f pi ds : (kind = "input" /\ f = IIn) \/ (kind = "output" /\ f = IOut) \/ (kind = "wire" /\ f = IWire) ->
  Forall2 ident_text pi ds -> item_toks (flat_map (fun p => [Word kind; itok p; Sym ";"]) pi) (map (fun d => f [d]) ds).
Proof.
  intros Hk H. induction H as [|p d l e Hp _ IH]; [apply items_nil|].
  change (item_toks ([Word kind; itok p; Sym ";"] ++ flat_map (fun p => [Word kind; itok p; Sym ";"]) l) ([f [d]] ++ map (fun d => f [d]) e)).
  apply items_app; [|done]. by apply items_decl.
Qed.
Definition lut_items (l : lut) (ds : list string) : list item :=
  [ILut (length ds) (lut_name l) (ds ++ [wire_name (l_node l)]); IInit (lut_name l) (2 ^ length ds) (initv (l_fn l))].
Lemma ident_simple d : simple_ident d = true -> ident (itok d) = Some d.
Proof. intros H. by apply itok_spec, simple_text. Qed.
Lemma items_lut l ds : Forall2 ident_text (l_fan l) ds -> tt_wf (l_fn l) -> nv (l_fn l) = length (l_fan l) ->
  item_toks (lut_toks l) (lut_items l ds).
Proof.
  intros Hf Hw Hn. pose proof (Forall2_length _ _ _ Hf) as Hl. unfold lut_toks, lut_items.
  rewrite (app_assoc _ [Sym ")"; Sym ";"]), (app_assoc _ _ [Word "defparam"; _; _; _; _; _; _]).
  change [ILut ?a ?b ?c; IInit ?d ?e ?f] with ([ILut a b c] ++ [IInit d e f]).
  apply items_app.
  - eapply items_one; [done|by apply lut_not_kw; cbn; tauto|]. intros r. cbn [app p_item].
    rewrite decide_False by (apply lut_not_kw; cbn; tauto). rewrite decide_False by (apply lut_not_kw; cbn; tauto).
    rewrite decide_False by (apply lut_not_kw; cbn; tauto). rewrite decide_False by (apply lut_not_kw; cbn; tauto).
    rewrite decide_False by (apply lut_not_kw; cbn; tauto). rewrite lut_arity_dec. cbn [mbind option_bind p_lut].
    unfold lut_name at 1. rewrite ident_simple by apply name_ident. cbn [mbind option_bind].
    rewrite <- app_assoc. rewrite (p_ids_commas _ (ds ++ [wire_name (l_node l)])).
    + cbn [mbind option_bind fst snd app]. by rewrite Hl.
    + by destruct (map itok (l_fan l)).
    + apply Forall2_app; [by apply toks_idents|]. constructor; [apply ident_simple, wire_ident|done].
    + done.
  - eapply items_one; [done|done|]. intros r. cbn [app p_item].
    rewrite !decide_False by done. rewrite decide_True by done. unfold lut_name at 1. rewrite ident_simple by apply name_ident. cbn [mbind option_bind].
    rewrite decide_True by done. rewrite (proj1 (init_value _ _ Hw Hn)). cbn [mbind option_bind fst snd]. by rewrite Hl.
Qed.
Lemma items_assign p d op t : ident_text p d -> p_operand [t] = Some (op, []) -> t <> Sym "~" ->
  (forall r, p_operand (t :: r) = Some (op, r)) -> item_toks [Word "assign"; itok p; Sym "="; t; Sym ";"] [IAssign d [(false, op)]].
Proof.
  intros Hp _ Ht Ho. eapply items_one; [done|done|]. intros r. cbn [app p_item]. rewrite !decide_False by done. rewrite decide_True by done.
  rewrite (proj1 (itok_spec p d Hp)). cbn [mbind option_bind length p_expr].
  assert (E : p_literal (t :: Sym ";" :: r) = Some (false, op, Sym ";" :: r)).
  { unfold p_literal. rewrite Ho. destruct t as [w|w|c]; [done|done|].
    destruct (decide (c = "~"%char)) as [->|Hc]; [done|]. destruct c as [[] [] [] [] [] [] [] []]; done. }
  rewrite E. done.
Qed.
Lemma p_operand_ident t d r : ident t = Some d -> p_operand (t :: r) = Some (OId d, r).
Proof. intros H. unfold p_operand. by rewrite H. Qed.
Lemma ident_not_sym t d c : ident t = Some d -> t <> Sym c.
Proof. by intros H ->. Qed.

Lemma clean_ports pi po ids ods b : Forall2 ident_text pi ids -> Forall2 ident_text po ods -> pi <> [] ->
  lx (port_list pi po +:+ ");" +:+ b) = commas (map itok (pi ++ po)) ++ Sym ")" :: Sym ";" :: lx b.
Proof.
  intros Hi Hods Hn. unfold port_list. destruct pi as [|p r]; [done|]. inversion Hi as [|? d ? ds Hp Hr]; subst. cbn [app map]. rewrite commas_flat.
  assert (Hc : forall l e, Forall2 ident_text l e -> forall k r, sep k -> lx (cats (map (fun q => ", " +:+ q) l) +:+ k +:+ r) =
     flat_map (fun x => [Sym ","; itok x]) l ++ lx (k +:+ r)).
  { intros l e H. induction H as [|x y l e Hxy _ IH]; intros k t Hs; [done|]. cbn [map cats foldr flat_map app].
    rewrite !sapp_assoc, lx_csp. destruct l as [|x' l].
    - cbn [map foldr flat_map app]. rewrite snil_app. by rewrite (lx_id x y).
    - cbn [map foldr] in *. rewrite !sapp_assoc. rewrite (lx_id x y) by done. f_equal. f_equal. specialize (IH k t Hs).
      unfold cats in IH. cbn [map foldr] in IH. rewrite !sapp_assoc in IH. exact IH. }
  rewrite !sapp_assoc.
  assert (Hcat : forall l1 l2, cats (map (fun q => ", " +:+ q) l1) +:+ cats (map (fun q => ", " +:+ q) l2) = cats (map (fun q => ", " +:+ q) (l1 ++ l2))).
  { intros l1 l2. induction l1 as [|x l1 IH]; [done|]. cbn [map app cats foldr]. rewrite !sapp_assoc. do 2 f_equal. exact IH. }
  rewrite <- (sapp_assoc (cats _) (cats _)), Hcat.
  assert (Ha : Forall2 ident_text (r ++ po) (ds ++ ods)) by (by apply Forall2_app).
  destruct (r ++ po) as [|x l] eqn:El.
  - cbn [map cats foldr]. rewrite snil_app. rewrite (lx_id p d), lx_close by done.
    apply app_eq_nil in El as [-> ->]. done.
  - cbn [map cats foldr]. rewrite !sapp_assoc. rewrite (lx_id p d) by done. f_equal.
    pose proof (Hc _ _ Ha ");" b eq_refl) as Hq. cbn [map cats foldr] in Hq. rewrite !sapp_assoc in Hq. unfold cats in Hq. rewrite Hq.
    rewrite lx_close. done.
Qed.

Lemma commas_head pi ds : Forall2 ident_text pi ds -> pi <> [] -> exists t r, commas (map itok pi) = t :: r /\ is_Some (ident t).
Proof.
  intros Hi Hn. destruct pi as [|p l]; [done|]. cbn [map]. rewrite commas_flat.
  eexists _, _. split; [done|]. inversion Hi as [|? d ? ? Hp ?]; subst. exists d. by apply itok_spec.
Qed.

(* ---------- lists ---------- *)
Lemma assoc_none {A} (ns : list nat) : forall (xs : list A) n, n ∉ ns -> assoc (zip ns xs) n = None.
Proof.
  induction ns as [|m ns IH]; intros [|x xs] n H; [done..|]. cbn [zip zip_with assoc].
  apply not_elem_of_cons in H as [H1 H2]. rewrite IH by done. by rewrite decide_False by done.
Qed.
Lemma assoc_zip {A} (ns : list nat) : forall (xs : list A) k n x, NoDup ns -> ns !! k = Some n -> xs !! k = Some x -> assoc (zip ns xs) n = Some x.
Proof.
  induction ns as [|m ns IH]; intros xs k n x Hnd Hk Hx; [done|]. destruct xs as [|y xs]; [by rewrite lookup_nil in Hx|].
  apply NoDup_cons in Hnd as [Hm Hnd]. cbn [zip zip_with assoc]. destruct k as [|k].
  - cbn in Hk, Hx. assert (m = n) as -> by congruence. assert (y = x) as -> by congruence. rewrite (assoc_none ns xs n Hm). by rewrite decide_True.
  - cbn in Hk, Hx. by rewrite (IH xs k n x).
Qed.
Fixpoint sassoc (ks : list string) (vs : list bool) (d : string) : bool :=
  match ks, vs with
  | k :: ks', v :: vs' => if decide (k = d) then v else sassoc ks' vs' d
  | _, _ => false
  end.
Lemma sassoc_lookup ks : forall vs i d v, NoDup ks -> ks !! i = Some d -> vs !! i = Some v -> sassoc ks vs d = v.
Proof.
  induction ks as [|k ks IH]; intros vs i d v Hnd Hi Hv; [done|]. destruct vs as [|w vs]; [by rewrite lookup_nil in Hv|].
  apply NoDup_cons in Hnd as [Hk Hnd]. cbn [sassoc]. destruct i as [|i].
  - cbn in Hi, Hv. rewrite decide_True by congruence. congruence.
  - cbn in Hi, Hv. rewrite decide_False; [by eapply IH|]. intros ->. apply Hk. by eapply elem_of_list_lookup_2.
Qed.
Lemma idx_S n : forall x, idx (S n) x = Nat.b2n (x 0) + 2 * idx n (fun k => x (S k)).
Proof.
  induction n as [|n IH]; intros x; [cbn; lia|].
  change (idx (S (S n)) x) with (idx (S n) x + Nat.b2n (x (S n)) * 2 ^ S n). rewrite IH.
  change (idx (S n) (fun k => x (S k))) with (idx n (fun k => x (S k)) + Nat.b2n (x (S n)) * 2 ^ n). cbn [Nat.pow]. lia.
Qed.
Lemma select_idx (l : list bool) : N.to_nat (select l) = idx (length l) (fun k => default false (l !! k)).
Proof.
  induction l as [|b l IH]; [done|]. cbn [length]. rewrite idx_S.
  change (N.to_nat (select (b :: l)) = Nat.b2n b + 2 * idx (length l) (fun k => default false (l !! k))).
  rewrite <- IH. cbn [select]. destruct b; cbn [N.b2n Nat.b2n]; lia.
Qed.
Lemma flat_map_nil {A B} (f : A -> list B) l : (forall x, x ∈ l -> f x = []) -> flat_map f l = [].
Proof. induction l as [|x l IH]; intros H; [done|]. cbn. rewrite H by left. apply IH. intros y Hy. apply H. by right. Qed.
Lemma flat_map_map {A B C} (f : B -> list C) (g : A -> B) l : flat_map f (map g l) = flat_map (fun x => f (g x)) l.
Proof. induction l as [|x l IH]; [done|]. cbn. by rewrite IH. Qed.
Lemma flat_map_one {A B} (f : A -> B) l : flat_map (fun x => [f x]) l = map f l.
Proof. induction l as [|x l IH]; [done|]. cbn. by rewrite IH. Qed.
Lemma flat_map_flat {A B C} (f : B -> list C) (g : A -> list B) l : flat_map f (flat_map g l) = flat_map (fun x => flat_map f (g x)) l.
Proof. induction l as [|x l IH]; [done|]. cbn. by rewrite flat_map_app, IH. Qed.
Lemma flat_map_ext_in {A B} (f g : A -> list B) l : (forall x, x ∈ l -> f x = g x) -> flat_map f l = flat_map g l.
Proof. induction l as [|x l IH]; intros H; [done|]. cbn. rewrite H by left. f_equal. apply IH. intros y Hy. apply H. by right. Qed.
Lemma elem_flat {A B} (f : A -> list B) l y : y ∈ flat_map f l <-> exists x, x ∈ l /\ y ∈ f x.
Proof. rewrite elem_of_list_In, in_flat_map. setoid_rewrite elem_of_list_In. done. Qed.

(* ---------- the gates of a LUT network ---------- *)
Definition gateb (s : klut) (n : nat) : bool :=
  bool_decide (1 < n) && match kn s !! n with Some x => negb (isci x) | None => false end.
Definition kids (s : klut) (n : nat) : list nat := match kn s !! n with Some x => kch x | None => [] end.
Definition gl (s : klut) (a m : nat) : list nat := filter (fun n => gateb s n = true) (seq a m).
Lemma gl_app s a b c : gl s a (b + c) = gl s a b ++ gl s (a + b) c.
Proof. unfold gl. by rewrite seq_app, filter_app. Qed.
Lemma gl_elem s a m n : n ∈ gl s a m <-> gateb s n = true /\ a <= n < a + m.
Proof. unfold gl. rewrite elem_of_list_filter, elem_of_seq. done. Qed.
Lemma gl_nodup s a m : NoDup (gl s a m).
Proof. apply NoDup_filter, NoDup_seq. Qed.

Section lut.
  Context (s : klut) (ps : ports) (ord : list nat -> list nat).
  Context (Hw : kwf s) (Hin : knpi s = length (kins s)) (Hno : knpo s <= length (kouts s)).
  Context (Hk : forall n x, 1 < n -> kn s !! n = Some x -> isci x = false -> Forall (fun c => 1 < c) (kch x)).
  Context (Hord : forall l, ord l ≡ₚ l).
  Context (Hpi : forall n x, kn s !! n = Some x -> kvl x <> 3%N).
  Context (ids ods : list string).
  Context (Hids : Forall2 ident_text (lut_pis s ps) ids) (Hods : Forall2 ident_text (lut_pos s ps) ods).
  Context (Hil : length ids = knpi s) (Hol : length ods = knpo s).
  Context (Hnd : NoDup (ids ++ ods)).
  Context (Hnw : forall n, wire_name n ∉ ids ++ ods) (Hnn : forall n, "name" +:+ sdec n ∉ ids ++ ods).
  Context (Hne : 0 < knpi s).

  Local Definition pm := zip (kpis s) (lut_pis s ps).
  Local Definition ptext (c : nat) : string := if gateb s c then wire_name c else default "" (assoc pm c).
  Local Definition nm (c : nat) : string := if gateb s c then wire_name c else default "" (assoc (zip (kpis s) ids) c).

  Lemma kpis_all : kpis s = kins s.
  Proof using All. unfold kpis. rewrite Hin. apply firstn_all. Qed.
  Lemma lpis_len : length (lut_pis s ps) = length ids.
  Proof using All. by eapply Forall2_length. Qed.
  Lemma input_lookup k n : kins s !! k = Some n -> exists p d, lut_pis s ps !! k = Some p /\ ids !! k = Some d /\
    assoc pm n = Some p /\ assoc (zip (kpis s) ids) n = Some d /\ ident_text p d.
  Proof using All.
    intros Hk'. destruct (lookup_lt_is_Some_2 ids k) as [d Hd].
    { rewrite Hil, Hin. by eapply lookup_lt_Some. }
    destruct (Forall2_lookup_r _ _ _ _ _ Hids Hd) as (p & Hp & Ht). exists p, d. unfold pm. rewrite kpis_all.
    split; [done|]. split; [done|]. split; [|split; [|done]]; eapply assoc_zip; eauto; apply (kw_nd s Hw).
  Qed.
  Lemma gateb_in n : n ∈ kins s -> gateb s n = false.
  Proof using All.
    intros H. apply elem_of_list_lookup in H as [k Hk']. destruct (kw_in s Hw k n Hk') as (_ & x & Hx & Hci).
    unfold gateb. rewrite Hx, Hci. by rewrite andb_false_r.
  Qed.
  (* constant, input or gate *)
  Lemma node_cases n : n < ksize s -> n <= 1 \/ (1 < n /\ n ∈ kins s) \/ (1 < n /\ gateb s n = true).
  Proof using All.
    intros H. destruct (decide (n <= 1)) as [|Hn]; [by left|]. right.
    destruct (lookup_lt_is_Some_2 (kn s) n H) as [x Hx]. destruct (isci x) eqn:E.
    - left. split; [lia|]. eapply (kw_ci s Hw); [|done|done]. lia.
    - right. split; [lia|]. unfold gateb. rewrite Hx, E, bool_decide_true by lia. done.
  Qed.
  Lemma kis_pi_ci n x : kn s !! n = Some x -> kis_pi s n = Some (isci x).
  Proof using All.
    intros H. unfold kis_pi, isci. rewrite H. cbn. specialize (Hpi n x H).
    rewrite (bool_decide_false (kvl x = 3%N)) by done. by rewrite orb_false_r.
  Qed.
  Lemma ident_node c : 1 < c -> c < ksize s -> ident_text (ptext c) (nm c).
  Proof using All.
    intros H1 H2. unfold ptext, nm. destruct (node_cases c H2) as [?|[[_ Hi]|[_ Hg]]]; [lia| |].
    - rewrite gateb_in by done. apply elem_of_list_lookup in Hi as [k Hk'].
      destruct (input_lookup k c Hk') as (p & d & _ & _ & -> & -> & Ht). done.
    - rewrite Hg. by apply simple_text, wire_ident.
  Qed.
  Lemma kids_ok n : gateb s n = true -> Forall (fun c => 1 < c < n) (kids s n) /\
    exists x f, kn s !! n = Some x /\ isci x = false /\ kids s n = kch x /\ knode_function s n = Some f /\ cache_get (kfn x) (kc s) = Some f /\ tt_wf f /\ nv f = length (kids s n).
  Proof using All.
    unfold gateb, kids. intros [H1%bool_decide_eq_true H2]%andb_prop. destruct (kn s !! n) as [x|] eqn:E; [|done].
    apply negb_true_iff in H2. destruct (kw_gate s Hw n x H1 E H2) as (Hc & f & Hf & Hwf & Hnv). split.
    - pose proof (Hk n x H1 E H2) as Hk'. apply Forall_forall. intros c Hcc. rewrite Forall_forall in Hc, Hk'. auto.
    - exists x, f. unfold knode_function. rewrite E. done.
  Qed.

  Local Definition lut_of (cnt n : nat) : lut := Lut n cnt (map ptext (kids s n)) (default (tt_const 0 false) (knode_function s n)).
  Lemma luts_spec m : forall a cnt, a + m <= ksize s ->
    luts_from s pm (gl s 0 a) cnt (seq a m) = Some (zip_with lut_of (seq cnt (length (gl s a m))) (gl s a m)).
  Proof using All.
    induction m as [|m IH]; intros a cnt Hl; [done|]. cbn [seq luts_from].
    destruct (lookup_lt_is_Some_2 (kn s) a) as [x Hx]; [unfold ksize in *; lia|].
    rewrite (kis_pi_ci a x Hx). cbn [mbind option_bind].
    assert (E1 : gl s 0 (S a) = gl s 0 a ++ gl s a 1). { replace (S a) with (a + 1) by lia. apply (gl_app s 0 a 1). }
    assert (E2 : gl s a (S m) = gl s a 1 ++ gl s (S a) m). { change (S m) with (1 + m). rewrite gl_app. do 2 f_equal. lia. }
    assert (Hb : bool_decide (a <= 1) || isci x = negb (gateb s a)).
    { unfold gateb. rewrite Hx. destruct (decide (a <= 1)).
      - rewrite bool_decide_true, bool_decide_false by lia. done.
      - rewrite bool_decide_false, bool_decide_true by lia. cbn. by rewrite negb_involutive. }
    rewrite Hb. destruct (gateb s a) eqn:Hg; cbn [negb].
    - assert (E3 : gl s a 1 = [a]). { unfold gl. cbn [seq]. rewrite filter_cons, decide_True by done. done. }
      destruct (kids_ok a Hg) as (Hc & y & f & Hy & _ & Hkd & Hf & _). rewrite Hx. cbn [mbind option_bind]. rewrite Hf. cbn [mbind option_bind].
      assert (y = x) as -> by congruence.
      assert (Hm : opt_map (fanin_name pm (gl s 0 a ++ [a])) (kch x) = Some (map ptext (kids s a))).
      { rewrite <- Hkd. revert Hc. generalize (kids s a) as l0. intros l0 Hc. induction l0 as [|c l IHl]; [done|].
        apply Forall_cons in Hc as [Hc1 Hc2]. cbn [opt_map].
        assert (Hfn : fanin_name pm (gl s 0 a ++ [a]) c = Some (ptext c)).
        { unfold fanin_name, ptext. destruct (node_cases c) as [?|[[_ Hi]|[_ Hgc]]]; [unfold ksize in *; lia|lia| |].
          - rewrite decide_False.
            + rewrite gateb_in by done. apply elem_of_list_lookup in Hi as [k Hk']. destruct (input_lookup k c Hk') as (p & d & _ & _ & -> & _). done.
            + rewrite elem_of_app, gl_elem, elem_of_list_singleton, gateb_in by done. intros [[? _]|?]; [done|lia].
          - rewrite decide_True; [by rewrite Hgc|]. rewrite elem_of_app, gl_elem. left. split; [done|lia]. }
        rewrite Hfn. cbn [mbind option_bind]. rewrite IHl by done. done. }
      rewrite Hm. cbn [mbind option_bind]. rewrite E3 in E1. rewrite <- E1, IH by lia. cbn [mbind option_bind].
      rewrite E2, E3. cbn [app length seq zip_with]. unfold lut_of at 2. rewrite Hf. done.
    - assert (E3 : gl s a 1 = []). { unfold gl. cbn [seq]. rewrite filter_cons, decide_False; [done|]. by rewrite Hg. }
      rewrite E3, app_nil_r in E1. rewrite <- E1, IH by lia. by rewrite E2, E3.
  Qed.

  Local Definition G := gl s 0 (ksize s).
  Local Definition LS := zip_with lut_of (seq 0 (length G)) G.
  Local Definition po_op (f : nat) : operand := if decide (f = 0) then OConst false else if decide (f = 1) then OConst true else OId (nm f).
  Local Definition po_tok (f : nat) : token := if decide (f = 0) then Word "1'b0" else if decide (f = 1) then Word "1'b1" else itok (ptext f).
  Local Definition po_toks (x : nat * nat) : list token :=
    [Word "assign"; itok (default "" (lut_pos s ps !! x.1)); Sym "="; po_tok x.2; Sym ";"].
  Local Definition po_item (x : nat * nat) : item := IAssign (default "" (ods !! x.1)) [(false, po_op x.2)].
  Local Definition POS := zip (seq 0 (length (kpos s))) (kpos s).
  Local Definition AST : vmod := VMod "top" (ids ++ ods)
    (map (fun d => IIn [d]) ids ++ map (fun d => IOut [d]) ods ++ map (fun n => IWire [wire_name n]) (ord G) ++
     flat_map (fun l => lut_items l (map nm (kids s (l_node l)))) LS ++ map po_item POS).

  Lemma kpos_len : length (kpos s) = knpo s.
  Proof using All. unfold kpos. rewrite take_length. lia. Qed.
  Lemma kpos_lt f : f ∈ kpos s -> f < ksize s.
  Proof using All. intros H. pose proof (kw_out s Hw) as Ho. rewrite Forall_forall in Ho. apply Ho. unfold kpos in H.
    apply elem_of_list_lookup in H as [i H]. apply lookup_take_Some in H as [H _]. by eapply elem_of_list_lookup_2. Qed.
  Lemma POS_elem x : x ∈ POS -> x.1 < knpo s /\ kpos s !! x.1 = Some x.2.
  Proof using All.
    intros H. apply elem_of_list_lookup in H as [i H]. unfold POS in H. apply lookup_zip_with_Some in H as (a & b & -> & Ha & Hb).
    apply lookup_seq in Ha as [-> ?]. cbn. rewrite kpos_len in *. done.
  Qed.
  Lemma LS_elem l : l ∈ LS -> exists i n, G !! i = Some n /\ l = lut_of i n.
  Proof using All.
    intros H. apply elem_of_list_lookup in H as [i H]. unfold LS in H. apply lookup_zip_with_Some in H as (a & b & -> & Ha & Hb).
    apply lookup_seq in Ha as [-> ?]. eauto.
  Qed.
  Lemma LS_fan l : l ∈ LS -> gateb s (l_node l) = true /\ Forall2 ident_text (l_fan l) (map nm (kids s (l_node l))) /\ tt_wf (l_fn l) /\ nv (l_fn l) = length (l_fan l).
  Proof using All.
    intros H. destruct (LS_elem l H) as (i & n & Hi & ->). cbn [l_node l_fan l_fn lut_of].
    apply elem_of_list_lookup_2, gl_elem in Hi as [Hg Hlt]. destruct (kids_ok n Hg) as (Hc & x & f & Hx & _ & Hkd & Hf & _ & Hwf & Hnv).
    rewrite Hf, map_length. cbn [default]. split; [done|]. split; [|done].
    rewrite Forall2_fmap_l, Forall2_fmap_r. apply Forall_Forall2_diag. eapply Forall_impl; [exact Hc|]. cbn. intros c Hcc. apply ident_node; [lia|].
    apply lookup_lt_Some in Hx. unfold ksize in *. lia.
  Qed.

  Lemma po_text_spec x : x ∈ POS -> exists t, po_text s pm (lut_pos s ps) x = Some t /\ clean t (po_toks x).
  Proof using All.
    intros H. destruct (POS_elem x H) as [Hlt Hp]. destruct x as [i f]. cbn [fst snd] in *.
    assert (Hf : f < ksize s) by (by apply kpos_lt; eapply elem_of_list_lookup_2).
    destruct (lookup_lt_is_Some_2 ods i) as [d Hd]; [by rewrite Hol|].
    destruct (Forall2_lookup_r _ _ _ _ _ Hods Hd) as (p & Hpp & Ht).
    unfold po_text, po_toks. cbn [fst snd]. rewrite Hpp. cbn [mbind option_bind default].
    destruct (lookup_lt_is_Some_2 (kn s) f Hf) as [y Hy]. rewrite (kis_pi_ci f y Hy). cbn [mbind option_bind].
    eexists. split; [done|]. unfold po_tok. destruct (node_cases f Hf) as [Hc|[[Hc Hi]|[Hc Hg]]].
    - rewrite decide_True by done. intros b. destruct f as [|[|f]]; [| |lia].
      + rewrite decide_True by done. rewrite !sapp_assoc, lx_tab, lx_assign. rewrite (lx_id p d) by done. reflexivity.
      + rewrite decide_False, decide_True by done. rewrite !sapp_assoc, lx_tab, lx_assign. rewrite (lx_id p d) by done. reflexivity.
    - rewrite decide_False by lia. rewrite decide_False, decide_False by lia.
      pose proof (ident_node f Hc Hf) as Hn. unfold ptext in *. rewrite gateb_in in * by done.
      apply elem_of_list_lookup in Hi as [k Hk']. destruct (kw_in s Hw k f Hk') as (_ & y' & Hy' & Hci). assert (y' = y) as -> by congruence. rewrite Hci.
      destruct (input_lookup k f Hk') as (q & e & _ & _ & Eq & _ & _). rewrite Eq in *. cbn [default] in *.
      intros b. rewrite !sapp_assoc, lx_tab, lx_assign. rewrite (lx_id p d), lx_eq by done. rewrite (lx_id _ _ _ _ Hn), lx_semi' by done. done.
    - rewrite decide_False by lia. rewrite decide_False, decide_False by lia.
      unfold ptext. rewrite Hg. unfold gateb in Hg. rewrite Hy in Hg. apply andb_prop in Hg as [_ Hg]. apply negb_true_iff in Hg. rewrite Hg.
      intros b. rewrite !sapp_assoc, lx_tab, lx_assign. rewrite (lx_id p d), lx_eq by done.
      rewrite (lx_id _ _ _ _ (simple_text _ (wire_ident f))), lx_semi by done. done.
  Qed.
  Lemma po_item_spec x : x ∈ POS -> item_toks (po_toks x) [po_item x].
  Proof using All.
    intros H. destruct (POS_elem x H) as [Hlt Hp]. destruct x as [i f]. cbn [fst snd] in *.
    assert (Hf : f < ksize s) by (by apply kpos_lt; eapply elem_of_list_lookup_2).
    destruct (lookup_lt_is_Some_2 ods i) as [d Hd]; [by rewrite Hol|].
    destruct (Forall2_lookup_r _ _ _ _ _ Hods Hd) as (p & Hpp & Ht).
    unfold po_toks, po_item. cbn [fst snd]. rewrite Hpp, Hd. cbn [default]. unfold po_tok, po_op.
    destruct (decide (f = 0)) as [->|H0]; [by apply items_assign|]. destruct (decide (f = 1)) as [->|H1]; [by apply items_assign|].
    pose proof (itok_spec _ _ (ident_node f ltac:(lia) Hf)) as [Hi _].
    apply items_assign; [done|by apply p_operand_ident|by eapply ident_not_sym|]. intros r. by apply p_operand_ident.
  Qed.

  Lemma flat_single {A B} (f : A -> B) l : flat_map (fun x => [f x]) l = map f l.
  Proof using All. apply flat_map_one. Qed.
  Theorem lut_text_reads : exists t, write_lut ord s ps = Some t /\ read_module t = Some AST.
  Proof using All.
    unfold write_lut, pi_map. rewrite decide_True by (rewrite lpis_len, Hil, kpis_all, Hin; done). cbn [mbind option_bind].
    pose proof (luts_spec (ksize s) 0 0 ltac:(lia)) as E. change (gl s 0 0) with (@nil nat) in E. fold G in E. fold LS in E.
    change (zip (kpis s) (lut_pis s ps)) with pm. rewrite E. cbn [mbind option_bind].
    assert (exists ts, opt_map (po_text s pm (lut_pos s ps)) POS = Some ts /\ clean (cats ts) (flat_map po_toks POS)) as (ts & Ets & Hts).
    { assert (HP : forall x, x ∈ POS -> exists t, po_text s pm (lut_pos s ps) x = Some t /\ clean t (po_toks x)) by apply po_text_spec.
      clear -HP. induction POS as [|x l IH]; [exists []; split; [done|apply clean_nil]|].
      destruct (HP x) as (t & Et & Ht); [left|]. destruct IH as (ts & Ets & Hts); [intros y Hy; apply HP; by right|].
      exists (t :: ts). cbn [opt_map flat_map]. rewrite Et. cbn [mbind option_bind]. rewrite Ets. cbn [mbind option_bind]. split; [done|]. change (clean (t +:+ cats ts) (po_toks x ++ flat_map po_toks l)). by apply clean_app. }
    fold POS. rewrite Ets. cbn [mbind option_bind]. eexists. split; [done|].
    set (body := cats (map (decl "input") (lut_pis s ps)) +:+ _).
    set (bt := flat_map (fun p => [Word "input"; itok p; Sym ";"]) (lut_pis s ps) ++
               flat_map (fun p => [Word "output"; itok p; Sym ";"]) (lut_pos s ps) ++
               flat_map (fun n => [Word "wire"; itok (wire_name n); Sym ";"]) (ord G) ++
               flat_map lut_toks LS ++ flat_map po_toks POS).
    assert (Hnode : map l_node LS = G).
    { unfold LS. generalize 0 as c. induction G as [|n l IH]; intros c; [done|]. cbn. f_equal. apply IH. }
    assert (Hb : lx body = bt ++ [Word "endmodule"]).
    { unfold body, bt. rewrite Hnode. 
      rewrite (clean_cats (decl "input") (fun p => [Word "input"; itok p; Sym ";"])).
      2:{ intros p Hp. apply elem_of_list_lookup in Hp as [i Hi]. destruct (Forall2_lookup_l _ _ _ _ _ Hids Hi) as (d & _ & Hd). eapply clean_decl; [|done]. split; [done|repeat constructor]. }
      rewrite (clean_cats (decl "output") (fun p => [Word "output"; itok p; Sym ";"])).
      2:{ intros p Hp. apply elem_of_list_lookup in Hp as [i Hi]. destruct (Forall2_lookup_l _ _ _ _ _ Hods Hi) as (d & _ & Hd). eapply clean_decl; [|done]. split; [done|repeat constructor]. }
      rewrite (clean_cats (fun n => decl "wire" (wire_name n)) (fun n => [Word "wire"; itok (wire_name n); Sym ";"])).
      2:{ intros n _. eapply clean_decl; [split; [done|repeat constructor]|]. apply simple_text, wire_ident. }
      rewrite (clean_cats lut_text lut_toks).
      2:{ intros l Hl. eapply clean_lut. by apply LS_fan. }
      rewrite Hts. rewrite <- !app_assoc. done. }
    assert (Hitems : item_toks bt (vitems AST)).
    { unfold bt. cbn [vitems AST]. repeat apply items_app.
      - apply (items_decls "input" IIn); [by left|done].
      - apply (items_decls "output" IOut); [by right; left|done].
      - rewrite <- (flat_single (fun n => IWire [wire_name n]) (ord G)). apply items_flat. intros n _.
        apply items_decl; [by right; right|]. apply simple_text, wire_ident.
      - apply items_flat. intros l Hl. destruct (LS_fan l Hl) as (_ & H1 & H2 & H3). by apply items_lut.
      - rewrite <- (flat_single po_item POS). apply items_flat. intros x Hx. by apply po_item_spec. }
    assert (Hnn0 : lut_pis s ps <> []). { intros E0. pose proof lpis_len as Hl. rewrite E0 in Hl. cbn in Hl. lia. }
    unfold read_module. rewrite lx_module. rewrite (clean_ports _ _ ids ods) by done. rewrite lx_nl, Hb. cbn [p_module].
    rewrite decide_True by done. change (ident (Word "top")) with (Some "top"). cbn [mbind option_bind].
    assert (Hids2 : p_ids (commas (map itok (lut_pis s ps ++ lut_pos s ps)) ++ Sym ")" :: Sym ";" :: bt ++ [Word "endmodule"]) =
       Some (ids ++ ods, Sym ")" :: Sym ";" :: bt ++ [Word "endmodule"])).
    { apply p_ids_commas; [|apply toks_idents; by apply Forall2_app|done]. intros E1%fmap_nil_inv. destruct (app_eq_nil _ _ E1) as [E2 _]. done. }
    assert (exists t r, commas (map itok (lut_pis s ps ++ lut_pos s ps)) = t :: r /\ is_Some (ident t)) as (t & r & Et & Ht).
    { eapply commas_head; [by apply Forall2_app|]. by intros [E1 _]%app_eq_nil. }
    rewrite Et in *. cbn [app] in *.
    assert (Hm : match t with Sym ")" => Some (@nil string, t :: r ++ Sym ")" :: Sym ";" :: bt ++ [Word "endmodule"]) | _ => p_ids (t :: r ++ Sym ")" :: Sym ";" :: bt ++ [Word "endmodule"]) end =
       p_ids (t :: r ++ Sym ")" :: Sym ";" :: bt ++ [Word "endmodule"])).
    { destruct t as [w|w|c]; [done|done|]. by destruct Ht. }
    replace (match t with Sym ")" => _ | _ => _ end) with (p_ids (t :: r ++ Sym ")" :: Sym ";" :: bt ++ [Word "endmodule"])) by (symmetry; exact Hm).
    rewrite Hids2. cbn [mbind option_bind fst snd].
    destruct Hitems as [Hlen Hitems]. pose proof (Hitems [Word "endmodule"] [] 1 eq_refl) as Hp. rewrite app_nil_r in Hp.
    rewrite (p_items_fuel _ _ _ _ Hp); [done|]. rewrite app_length. cbn [length]. lia.
  Qed.

  (* ---------- the module obeys the static rules ---------- *)
  Lemma LS_nodes : map l_node LS = G.
  Proof using All. unfold LS. generalize 0 as c. induction G as [|n l IH]; intros c; [done|]. cbn. f_equal. apply IH. Qed.
  Lemma LS_nums : map l_num LS = seq 0 (length G).
  Proof using All. unfold LS. generalize 0 as c. induction G as [|n l IH]; intros c; [done|]. cbn. f_equal. apply IH. Qed.
  Lemma POS_outs : map (fun x => default "" (ods !! x.1)) POS = ods.
  Proof using All.
    apply list_eq. intros i. rewrite list_lookup_fmap. unfold POS.
    destruct (decide (i < knpo s)) as [H|H].
    - destruct (lookup_lt_is_Some_2 (kpos s) i) as [f Hf]; [by rewrite kpos_len|].
      destruct (lookup_lt_is_Some_2 ods i) as [d Hd]; [by rewrite Hol|].
      assert (E : zip (seq 0 (length (kpos s))) (kpos s) !! i = Some (i, f)).
      { apply lookup_zip_with_Some. exists i, f. split; [done|]. split; [|done]. apply lookup_seq. rewrite kpos_len. lia. }
      rewrite E. cbn [fmap option_fmap option_map fst]. rewrite Hd. done.
    - rewrite (lookup_ge_None_2 ods) by lia. rewrite lookup_ge_None_2; [done|]. rewrite zip_with_length, kpos_len, seq_length. lia.
  Qed.
  Lemma AST_in : d_in AST = ids.
  Proof using All.
    unfold d_in. cbn [vitems AST]. rewrite !flat_map_app, !flat_map_map. rewrite flat_map_flat. cbn [flat_map lut_items app].
    rewrite (flat_map_nil _ ods), (flat_map_nil _ (ord G)), (flat_map_nil _ LS), (flat_map_nil _ POS) by done.
    rewrite !app_nil_r. rewrite flat_map_one. apply map_id.
  Qed.
  Lemma AST_out : d_out AST = ods.
  Proof using All.
    unfold d_out. cbn [vitems AST]. rewrite !flat_map_app, !flat_map_map. rewrite flat_map_flat. cbn [flat_map lut_items app].
    rewrite (flat_map_nil _ ids), (flat_map_nil _ (ord G)), (flat_map_nil _ LS), (flat_map_nil _ POS) by done.
    rewrite !app_nil_r, flat_map_one. cbn. apply map_id.
  Qed.
  Lemma AST_wire : d_wire AST = map wire_name (ord G).
  Proof using All.
    unfold d_wire. cbn [vitems AST]. rewrite !flat_map_app, !flat_map_map. rewrite flat_map_flat. cbn [flat_map lut_items app].
    rewrite (flat_map_nil _ ids), (flat_map_nil _ ods), (flat_map_nil _ LS), (flat_map_nil _ POS) by done.
    rewrite !app_nil_r, flat_map_one. done.
  Qed.
  Lemma AST_insts : insts AST = map lut_name LS.
  Proof using All.
    unfold insts. cbn [vitems AST]. rewrite !flat_map_app, !flat_map_map. rewrite flat_map_flat. cbn [flat_map lut_items app].
    rewrite (flat_map_nil _ ids), (flat_map_nil _ ods), (flat_map_nil _ (ord G)), (flat_map_nil _ POS) by done.
    rewrite !app_nil_r, flat_map_one. done.
  Qed.
  Lemma AST_params : params AST = map lut_name LS.
  Proof using All.
    unfold params. cbn [vitems AST]. rewrite !flat_map_app, !flat_map_map. rewrite flat_map_flat. cbn [flat_map lut_items app].
    rewrite (flat_map_nil _ ids), (flat_map_nil _ ods), (flat_map_nil _ (ord G)), (flat_map_nil _ POS) by done.
    rewrite !app_nil_r, flat_map_one. done.
  Qed.
  Lemma AST_driven : driven AST = map wire_name G ++ ods.
  Proof using All.
    unfold driven. cbn [vitems AST]. rewrite !flat_map_app, !flat_map_map. rewrite flat_map_flat. cbn [flat_map lut_items app].
    rewrite (flat_map_nil _ ids), (flat_map_nil _ ods), (flat_map_nil _ (ord G)) by done. cbn [app]. f_equal.
    - rewrite (flat_map_ext_in _ (fun l => [wire_name (l_node l)])).
      + rewrite flat_map_one, <- LS_nodes. by rewrite map_map.
      + intros l _. cbn [flat_map]. by rewrite !app_nil_r, drop_app.
    - rewrite (flat_map_ext_in _ (fun x => [default "" (ods !! x.1)])) by done. rewrite flat_map_one. exact POS_outs.
  Qed.
  Lemma AST_reads : reads AST = flat_map (fun l => map nm (kids s (l_node l))) LS ++ flat_map (fun x => match po_op x.2 with OId d => [d] | OConst _ => [] end) POS.
  Proof using All.
    unfold reads. cbn [vitems AST]. rewrite !flat_map_app, !flat_map_map. rewrite flat_map_flat. cbn [flat_map lut_items app].
    rewrite (flat_map_nil _ ids), (flat_map_nil _ ods), (flat_map_nil _ (ord G)) by done. cbn [app]. f_equal; apply flat_map_ext_in.
    - intros l _. rewrite app_nil_r. apply take_app.
    - intros x _. cbn [po_item flat_map fst snd]. by rewrite app_nil_r.
  Qed.
  Lemma G_elem n : n ∈ G <-> gateb s n = true.
  Proof using All.
    unfold G. rewrite gl_elem. split; [tauto|]. intros H. split; [done|]. unfold gateb in H. apply andb_prop in H as [_ H].
    destruct (kn s !! n) as [x|] eqn:E; [|done]. apply lookup_lt_Some in E. unfold ksize. lia.
  Qed.
  Lemma nm_cases c : 1 < c < ksize s -> (gateb s c = true /\ nm c = wire_name c) \/ (exists k, kins s !! k = Some c /\ ids !! k = Some (nm c)).
  Proof using All.
    intros [H1 H2]. unfold nm. destruct (node_cases c H2) as [?|[[_ Hi]|[_ Hg]]]; [lia| |].
    - right. rewrite gateb_in by done. apply elem_of_list_lookup in Hi as [k Hk']. exists k. split; [done|].
      destruct (input_lookup k c Hk') as (p & d & _ & Hd & _ & -> & _). done.
    - left. by rewrite Hg.
  Qed.
  Lemma nm_inj a b : 1 < a < ksize s -> 1 < b < ksize s -> nm a = nm b -> a = b.
  Proof using All.
    intros Ha Hb E. destruct (proj1 (NoDup_app _ _) Hnd) as (Hnd1 & _ & _).
    assert (Hwi : forall n k, ids !! k = Some (wire_name n) -> False).
    { intros n k Hk'. apply (Hnw n). apply elem_of_app. left. by eapply elem_of_list_lookup_2. }
    destruct (nm_cases a Ha) as [[_ Ea]|(k & K1 & K2)], (nm_cases b Hb) as [[_ Eb]|(k' & K3 & K4)].
    - rewrite Ea, Eb in E. by apply wire_inj.
    - exfalso. rewrite <- E, Ea in K4. by eapply Hwi.
    - exfalso. rewrite E, Eb in K2. by eapply Hwi.
    - rewrite E in K2. pose proof (NoDup_lookup _ _ _ _ Hnd1 K2 K4) as ->. congruence.
  Qed.
  Lemma nm_legal c : 1 < c < ksize s -> nm c ∈ ids ++ map wire_name G ++ ods.
  Proof using All.
    intros H. destruct (nm_cases c H) as [[Hg ->]|(k & _ & K)]; apply elem_of_app.
    - right. apply elem_of_app. left. apply elem_of_list_fmap. exists c. split; [done|]. by apply G_elem.
    - left. by eapply elem_of_list_lookup_2.
  Qed.
  Lemma kids_lt l c : l ∈ LS -> c ∈ kids s (l_node l) -> 1 < c < ksize s.
  Proof using All.
    intros Hl Hc. destruct (LS_fan l Hl) as (Hg & _). destruct (kids_ok _ Hg) as [Hf (x & _ & Hx & _)].
    rewrite Forall_forall in Hf. specialize (Hf c Hc). apply lookup_lt_Some in Hx. unfold ksize. lia.
  Qed.
  Lemma lut_names_nodup : NoDup (map lut_name LS).
  Proof using All.
    unfold lut_name. rewrite <- (map_map l_num (fun k => "name" +:+ sdec k)), LS_nums.
    apply NoDup_fmap_2; [|apply NoDup_seq]. intros a b E. injection E as E. by apply sdec_inj0.
  Qed.
  Lemma wires_nodup l : NoDup l -> NoDup (map wire_name l).
  Proof using All. apply NoDup_fmap_2. intros a b. apply wire_inj. Qed.
  Lemma AST_legal : legal AST.
  Proof using All.
    split.
    - rewrite AST_in, AST_out, AST_wire, AST_insts, app_assoc. apply NoDup_app. split; [done|]. split.
      + intros d Hd [Hx|Hx]%elem_of_app; apply elem_of_list_fmap in Hx as (y & -> & _); [by apply (Hnw y)|by apply (Hnn (l_num y))].
      + apply NoDup_app. split; [apply wires_nodup; rewrite Hord; apply gl_nodup|]. split; [|apply lut_names_nodup].
        intros d Hd Hx. apply elem_of_list_fmap in Hd as (y & -> & _). apply elem_of_list_fmap in Hx as (z & E & _). discriminate E.
    - by rewrite AST_in, AST_out.
    - rewrite AST_driven, AST_out, AST_wire. split.
      + apply NoDup_app. split; [apply wires_nodup, gl_nodup|]. split; [|exact (proj2 (proj2 (proj1 (NoDup_app _ _) Hnd)))].
        intros d Hd Hx. apply elem_of_list_fmap in Hd as (y & -> & _). apply (Hnw y). apply elem_of_app. by right.
      + apply Forall_app. split; apply Forall_forall; intros d Hd; apply elem_of_app; [right|by left].
        rewrite Hord. done.
    - rewrite AST_reads, AST_in, AST_driven. apply Forall_app. split; apply Forall_forall; intros d Hd; apply elem_flat in Hd as (y & Hy & Hd).
      + apply elem_of_list_fmap in Hd as (c & -> & Hc). apply nm_legal. by eapply kids_lt.
      + destruct (POS_elem y Hy) as [_ Hf]. unfold po_op in Hd. destruct (decide (y.2 = 0)); [by apply elem_of_nil in Hd|]. destruct (decide (y.2 = 1)); [by apply elem_of_nil in Hd|].
        apply elem_of_list_singleton in Hd as ->. apply nm_legal. split; [lia|]. apply kpos_lt. by eapply elem_of_list_lookup_2.
    - rewrite AST_driven, AST_out. apply Forall_forall. intros d Hd. apply elem_of_app. by right.
    - rewrite AST_params, AST_insts. split; [apply lut_names_nodup|]. split; [by apply Forall_forall|].
      intros k d l H. cbn [vitems AST] in H. rewrite !elem_of_app in H.
      destruct H as [H|[H|[H|[H|H]]]]; try (apply elem_of_list_fmap in H as (y & E & _); discriminate E).
      apply elem_flat in H as (y & Hy & H). unfold lut_items in H. apply elem_of_cons in H as [H|H].
      + injection H as -> -> ->. rewrite app_length. cbn [length]. split; [lia|]. exists (initv (l_fn y)). cbn [vitems AST]. rewrite !elem_of_app.
        right; right; right; left. apply elem_flat. exists y. split; [done|]. unfold lut_items. right. left.
      + apply elem_of_list_singleton in H. discriminate H.
  Qed.

  (* ---------- its meaning ---------- *)
  Lemma item_lut i n : G !! i = Some n ->
    ILut (length (kids s n)) (lut_name (lut_of i n)) (map nm (kids s n) ++ [wire_name n]) ∈ vitems AST /\
    IInit (lut_name (lut_of i n)) (2 ^ length (kids s n)) (initv (l_fn (lut_of i n))) ∈ vitems AST.
  Proof using All.
    intros H. assert (Hl : lut_of i n ∈ LS).
    { apply elem_of_list_lookup. exists i. unfold LS. apply lookup_zip_with_Some. exists i, n. split; [done|]. split; [|done].
      apply lookup_seq. split; [done|]. by eapply lookup_lt_Some. }
    cbn [vitems AST]. rewrite !elem_of_app. split; right; right; right; left; apply elem_flat; exists (lut_of i n); (split; [done|]).
    - unfold lut_items. cbn [lut_of l_node]. rewrite map_length. left.
    - unfold lut_items. rewrite map_length. cbn [lut_of l_node]. right. left.
  Qed.
  Lemma item_lut_inv k d l sz v : ILut k d l ∈ vitems AST -> IInit d sz v ∈ vitems AST -> exists i n, G !! i = Some n /\
    k = length (kids s n) /\ l = map nm (kids s n) ++ [wire_name n] /\ v = initv (l_fn (lut_of i n)).
  Proof using All.
    intros H1 H2. cbn [vitems AST] in H1, H2. rewrite !elem_of_app in H1, H2.
    destruct H1 as [H|[H|[H|[H|H]]]]; try (apply elem_of_list_fmap in H as (y & E & _); discriminate E).
    destruct H2 as [H2|[H2|[H2|[H2|H2]]]]; try (apply elem_of_list_fmap in H2 as (y & E & _); discriminate E).
    apply elem_flat in H as (y & Hy & H). apply elem_flat in H2 as (z & Hz & H2).
    unfold lut_items in H, H2. apply elem_of_cons in H as [H|H]; [|apply elem_of_list_singleton in H; discriminate H].
    apply elem_of_cons in H2 as [H2|H2]; [discriminate H2|]. apply elem_of_list_singleton in H2.
    injection H as -> -> ->. injection H2 as E -> ->.
    destruct (LS_elem y Hy) as (i & n & Hi & ->). destruct (LS_elem z Hz) as (j & m & Hj & ->).
    unfold lut_name in E. cbn [l_num lut_of] in E. assert (i = j) as <- by (apply sdec_inj0; congruence).
    assert (n = m) as <- by congruence. exists i, n. cbn [l_node lut_of]. rewrite map_length. done.
  Qed.
  (* the equation of one gate *)
  Lemma gate_value i n x f rho v : G !! i = Some n -> kn s !! n = Some x -> cache_get (kfn x) (kc s) = Some f ->
    (forall c, c ∈ kids s n -> rho (nm c) = v c) ->
    N.testbit (initv (l_fn (lut_of i n))) (select (map rho (take (length (kids s n)) (map nm (kids s n) ++ [wire_name n])))) =
    tt_eval f (fun k => match kch x !! k with Some c => v c | None => false end).
  Proof using All.
    intros Hi Hx Hf Hv. assert (Hg : gateb s n = true) by (apply G_elem; by eapply elem_of_list_lookup_2).
    destruct (kids_ok n Hg) as (_ & y & g & Hy & _ & Hkd & Hfn & Hg' & Hwf & Hnv).
    assert (y = x) as -> by congruence. assert (g = f) as -> by congruence.
    cbn [l_fn lut_of]. rewrite Hfn. cbn [default].
    replace (take (length (kids s n)) (map nm (kids s n) ++ [wire_name n])) with (map nm (kids s n)).
    2:{ symmetry. rewrite <- (map_length nm (kids s n)) at 1. apply take_app. }
    rewrite (proj2 (init_value _ f Hwf eq_refl)), select_idx. unfold tt_eval. rewrite !map_length, Hnv. f_equal. apply idx_ext.
    intros k Hkk. rewrite <- Hkd, !list_lookup_fmap. destruct (kids s n !! k) as [c|] eqn:Ec; cbn; [|done].
    apply Hv. by eapply elem_of_list_lookup_2.
  Qed.
  Lemma item_po i f : kpos s !! i = Some f -> exists d, ods !! i = Some d /\ IAssign d [(false, po_op f)] ∈ vitems AST.
  Proof using All.
    intros H. pose proof (lookup_lt_Some _ _ _ H) as Hl. rewrite kpos_len in Hl.
    destruct (lookup_lt_is_Some_2 ods i) as [d Hd]; [by rewrite Hol|]. exists d. split; [done|].
    cbn [vitems AST]. rewrite !elem_of_app. right; right; right; right. apply elem_of_list_fmap. exists (i, f).
    unfold po_item. cbn [fst snd]. rewrite Hd. split; [done|]. unfold POS. apply elem_of_list_lookup. exists i.
    apply lookup_zip_with_Some. exists i, f. split; [done|]. split; [|done]. apply lookup_seq. rewrite kpos_len. done.
  Qed.
  Lemma oval_op rho v f : v 0 = false -> v 1 = true -> (1 < f -> rho (nm f) = v f) -> eval_expr rho [(false, po_op f)] = v f.
  Proof using All.
    intros H0 H1 Hv. unfold eval_expr, po_op. cbn [forallb fst snd]. rewrite andb_true_r, xorb_false_l.
    destruct (decide (f = 0)) as [->|]; [done|]. destruct (decide (f = 1)) as [->|]; [done|]. cbn [oval]. apply Hv. lia.
  Qed.
  Lemma map_pointwise (rho : string -> bool) (v : nat -> bool) : (forall i f d, kpos s !! i = Some f -> ods !! i = Some d -> rho d = v f) ->
    map rho ods = map v (kpos s).
  Proof using All.
    intros H. apply list_eq. intros i. rewrite !list_lookup_fmap. destruct (decide (i < knpo s)) as [L|L].
    - destruct (lookup_lt_is_Some_2 (kpos s) i) as [f Hf]; [by rewrite kpos_len|].
      destruct (lookup_lt_is_Some_2 ods i) as [d Hd]; [by rewrite Hol|]. rewrite Hf, Hd. cbn. f_equal. by eapply H.
    - rewrite !lookup_ge_None_2; [done|rewrite kpos_len; lia|lia].
  Qed.
  Lemma AST_sound env l : mod_computes AST env l -> kcomputes s env l.
  Proof using All.
    intros (rho & [Ha Hl] & Henv & ->). rewrite AST_in in Henv. rewrite AST_out.
    set (v := fun n => if decide (n = 0) then false else if decide (n = 1) then true else rho (nm n)).
    assert (Hv : forall n, 1 < n -> v n = rho (nm n)). { intros n H. unfold v. rewrite !decide_False by lia. done. }
    exists v. split; [|].
    - split; [done|done| |].
      + intros k n H. destruct (kw_in s Hw k n H) as [H1 _]. rewrite Hv by done. apply Henv.
        destruct (input_lookup k n H) as (p & d & _ & Hd & _ & Ed & _). unfold nm. rewrite gateb_in by (by eapply elem_of_list_lookup_2).
        by rewrite Ed.
      + intros n x f H1 Hx Hci Hf. rewrite Hv by done.
        assert (Hg : gateb s n = true). { unfold gateb. rewrite Hx. rewrite (kis_ci_isci s n x Hx) in Hci. assert (isci x = false) as -> by congruence. by rewrite bool_decide_true. }
        pose proof Hg as HG. apply G_elem in HG. apply elem_of_list_lookup in HG as [i Hi]. destruct (item_lut i n Hi) as [I1 I2].
        specialize (Hl _ _ _ _ _ I1 I2). rewrite (gate_value i n x f rho v Hi Hx Hf) in Hl.
        * rewrite drop_app_alt in Hl by (by rewrite map_length). apply Forall_cons in Hl as [Hl _]. unfold nm at 1. rewrite Hg. exact Hl.
        * intros c Hc. symmetry. apply Hv. destruct (kids_ok n Hg) as [Hf' _]. rewrite Forall_forall in Hf'. by apply Hf'.
    - apply map_pointwise. intros i f d Hf Hd. destruct (item_po i f Hf) as (d' & Hd' & Hit). assert (d' = d) as -> by congruence.
      rewrite (Ha _ _ Hit). apply oval_op; [done|done|]. intros H. symmetry. by apply Hv.
  Qed.
  Lemma AST_complete env l : kcomputes s env l -> mod_computes AST env l.
  Proof using All.
    intros (v & Hv & ->).
    set (keys := map nm (seq 2 (ksize s - 2)) ++ ods). set (vals := map v (seq 2 (ksize s - 2)) ++ map v (kpos s)).
    set (rho := sassoc keys vals).
    assert (Hkeys : NoDup keys).
    { apply NoDup_app. destruct (proj1 (NoDup_app _ _) Hnd) as (Hn1 & Hn2 & Hn3). split; [|split; [|done]].
      - apply NoDup_alt. intros i j d Hi Hj. rewrite list_lookup_fmap in Hi, Hj. apply fmap_Some in Hi as (a & Hi & Ea), Hj as (b & Hj & Eb).
        apply lookup_seq in Hi as [-> Hi], Hj as [-> Hj]. assert (2 + i = 2 + j); [|lia]. apply nm_inj; [lia|lia|congruence].
      - intros d Hd Hx. apply elem_of_list_fmap in Hd as (c & -> & Hc). apply elem_of_seq in Hc.
        destruct (nm_cases c ltac:(lia)) as [[_ E]|(k & _ & Hk')].
        + rewrite E in Hx. apply (Hnw c). apply elem_of_app. by right.
        + apply (Hn2 (nm c)); [by eapply elem_of_list_lookup_2|done]. }
    assert (Hr1 : forall n, 1 < n < ksize s -> rho (nm n) = v n).
    { intros n Hn. apply (sassoc_lookup keys vals (n - 2)); [done| |].
      - unfold keys. rewrite lookup_app_l by (rewrite map_length, seq_length; lia). rewrite list_lookup_fmap.
        rewrite lookup_seq_lt by lia. cbn. do 2 f_equal. lia.
      - unfold vals. rewrite lookup_app_l by (rewrite map_length, seq_length; lia). rewrite list_lookup_fmap.
        rewrite lookup_seq_lt by lia. cbn. do 2 f_equal. lia. }
    assert (Hr2 : forall i f d, kpos s !! i = Some f -> ods !! i = Some d -> rho d = v f).
    { intros i f d Hf Hd. apply (sassoc_lookup keys vals (ksize s - 2 + i)); [done| |].
      - unfold keys. rewrite lookup_app_r by (rewrite map_length, seq_length; lia). rewrite map_length, seq_length.
        replace (ksize s - 2 + i - (ksize s - 2)) with i by lia. done.
      - unfold vals. rewrite lookup_app_r by (rewrite map_length, seq_length; lia). rewrite map_length, seq_length.
        replace (ksize s - 2 + i - (ksize s - 2)) with i by lia. rewrite list_lookup_fmap, Hf. done. }
    exists rho. split; [split|split].
    - intros d e Hit. cbn [vitems AST] in Hit. rewrite !elem_of_app in Hit.
      destruct Hit as [H|[H|[H|[H|H]]]]; try (apply elem_of_list_fmap in H as (y & E & _); discriminate E).
      + apply elem_flat in H as (y & _ & H). unfold lut_items in H. rewrite !elem_of_cons in H. destruct H as [H|[H|H]]; [discriminate H..|by apply elem_of_nil in H].
      + apply elem_of_list_fmap in H as (y & E & Hy). destruct (POS_elem y Hy) as [Hlt Hf]. unfold po_item in E.
        destruct (lookup_lt_is_Some_2 ods y.1) as [o Ho]; [by rewrite Hol|]. rewrite Ho in E. cbn [default] in E. injection E as -> ->.
        rewrite (Hr2 _ _ _ Hf Ho). symmetry. apply oval_op; [apply (kv_0 _ _ _ Hv)|apply (kv_1 _ _ _ Hv)|].
        intros H. apply Hr1. split; [done|]. apply kpos_lt. by eapply elem_of_list_lookup_2.
    - intros k d l sz w Hi1 Hi2. destruct (item_lut_inv k d l sz w Hi1 Hi2) as (i & n & Hi & -> & -> & ->).
      rewrite drop_app_alt by (by rewrite map_length). constructor; [|done].
      assert (Hg : gateb s n = true) by (apply G_elem; by eapply elem_of_list_lookup_2).
      destruct (kids_ok n Hg) as (Hf' & x & f & Hx & Hci & Hkd & _ & Hf & _).
      pose proof (lookup_lt_Some _ _ _ Hx) as Hlt. fold (ksize s) in Hlt.
      assert (H1 : 1 < n). { unfold gateb in Hg. apply andb_prop in Hg as [Hg _]. by apply bool_decide_eq_true in Hg. }
      rewrite (gate_value i n x f rho v Hi Hx Hf).
      + replace (wire_name n) with (nm n) by (unfold nm; by rewrite Hg). rewrite Hr1 by done.
        eapply (kv_gate _ _ _ Hv); [done|done| |done]. rewrite (kis_ci_isci s n x Hx). by rewrite Hci.
      + intros c Hc. rewrite Forall_forall in Hf'. specialize (Hf' c Hc). apply Hr1. lia.
    - rewrite AST_in. intros k d Hd. assert (Hlt : k < length (kins s)). { apply lookup_lt_Some in Hd. lia. }
      destruct (lookup_lt_is_Some_2 (kins s) k Hlt) as [n Hn]. destruct (kw_in s Hw k n Hn) as (H1 & x & Hx & _).
      destruct (input_lookup k n Hn) as (p & d' & _ & Hd' & _ & Ed & _). assert (d' = d) as -> by congruence.
      rewrite <- (kv_in _ _ _ Hv k n Hn). rewrite <- Hr1; [|split; [done|by eapply lookup_lt_Some]].
      unfold nm. rewrite gateb_in by (by eapply elem_of_list_lookup_2). by rewrite Ed.
    - rewrite AST_out. symmetry. apply map_pointwise, Hr2.
  Qed.
End lut.
