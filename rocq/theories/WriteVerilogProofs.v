From Verif Require Import Base Verilog Aig AigProofs AigSem Topo Clean NetProofs CleanProofs Cnf CnfProofs Writers VerilogProofs WriteLutProofs.
Local Open Scope string_scope.
Local Open Scope list_scope.
Local Open Scope nat_scope.

(* ---------- lexing and parsing of the pieces ---------- *)
Lemma lx_join ps ds k r : Forall2 ident_text ps ds -> ps <> [] -> sep k ->
  lx (join " , " ps +:+ k +:+ r) = commas (map itok ps) ++ lx (k +:+ r).
Proof.
  intros H Hn Hk. induction H as [|p d ps ds Hp Hps IH]; [done|]. destruct ps as [|q ps].
  - cbn [join map commas app]. by rewrite (lx_id p d).
  - change (join " , " (p :: q :: ps)) with (p +:+ " , " +:+ join " , " (q :: ps)).
    rewrite !sapp_assoc. rewrite (lx_id p d) by done.
    change (commas (map itok (p :: q :: ps))) with (itok p :: Sym "," :: commas (map itok (q :: ps))). cbn [app]. f_equal.
    rewrite <- IH by done. reflexivity.
Qed.
Definition decl_toks (kind : string) (ps given : list string) : list token :=
  match given with
  | [] => Word kind :: commas (map itok ps) ++ [Sym ";"]
  | _ => flat_map (fun p => [Word kind; itok p; Sym ";"]) ps
  end.
Definition decl_items (f : list string -> item) (ds given : list string) : list item :=
  match given with [] => [f ds] | _ => map (fun d => f [d]) ds end.
Lemma lx_sp2 r : lx ("  " +:+ r) = lx r. Proof. reflexivity. Qed.
Lemma clean_on_decl kind ps given ds : wordy kind -> Forall2 ident_text ps ds -> ps <> [] -> (given = [] \/ given = ps) ->
  clean (on_decl kind ps given) (decl_toks kind ps given).
Proof.
  intros Hk H Hn Hg. destruct given as [|g given].
  - intros b. cbn [on_decl decl_toks]. rewrite !sapp_assoc, lx_sp2, lx_wordk, lx_sp by done.
    rewrite (lx_join ps ds) by done. rewrite lx_semi, lx_nl. cbn [app]. rewrite <- app_assoc. done.
  - destruct Hg as [?|<-]; [done|]. cbn [on_decl decl_toks]. apply clean_cats. intros p Hp b.
    apply elem_of_list_lookup in Hp as [i Hi]. destruct (Forall2_lookup_l _ _ _ _ _ H Hi) as (d & _ & Hd).
    rewrite !sapp_assoc, lx_sp2, lx_wordk, lx_sp by done. rewrite (lx_id p d) by done. by rewrite lx_semi, lx_nl.
Qed.
Lemma items_list kind f ps ds : (kind = "input" /\ f = IIn) \/ (kind = "output" /\ f = IOut) \/ (kind = "wire" /\ f = IWire) ->
  Forall2 ident_text ps ds -> ps <> [] -> item_toks (Word kind :: commas (map itok ps) ++ [Sym ";"]) [f ds].
Proof.
  intros Hk H Hn. eapply items_one; [done| |].
  - destruct Hk as [[-> _]|[[-> _]|[-> _]]]; done.
  - intros r. cbn [app]. rewrite <- app_assoc. cbn [app].
    assert (E : forall g, p_list g (commas (map itok ps) ++ Sym ";" :: r) = Some (g ds, r)).
    { intros g. apply p_list_spec; [by destruct ps|]. by apply toks_idents. }
    destruct Hk as [[-> ->]|[[-> ->]|[-> ->]]]; cbn [p_item]; repeat (rewrite decide_False by done); rewrite decide_True by done; apply E.
Qed.
Lemma items_on_decl kind f ps given ds : (kind = "input" /\ f = IIn) \/ (kind = "output" /\ f = IOut) \/ (kind = "wire" /\ f = IWire) ->
  Forall2 ident_text ps ds -> ps <> [] -> item_toks (decl_toks kind ps given) (decl_items f ds given).
Proof.
  intros Hk H Hn. destruct given as [|g given]; cbn [decl_toks decl_items]; [by apply items_list|by apply items_decls].
Qed.

(* operands: the text of a node and what it denotes *)
Definition op_text (p : string) (t : token) (o : operand) : Prop :=
  (forall k r, sep k -> lx (p +:+ k +:+ r) = t :: lx (k +:+ r)) /\ t <> Sym "~" /\ forall r, p_operand (t :: r) = Some (o, r).
Lemma op_zero : op_text "1'b0" (Word "1'b0") (OConst false).
Proof.
  split; [|split; [done|reflexivity]]. intros k r Hk. apply lx_wordk; [|done]. split; [done|]. repeat constructor.
Qed.
Lemma op_ident p d : ident_text p d -> op_text p (itok p) (OId d).
Proof.
  intros H. destruct (itok_spec p d H) as [Hi _]. split; [|split; [by eapply ident_not_sym|]].
  - intros k r Hk. by apply (lx_id p d).
  - intros r. by apply p_operand_ident.
Qed.
Definition ltoks (c : bool) (t : token) : list token := (if c then [Sym "~"] else []) ++ [t].
Definition ltext (c : bool) (p : string) : string := (if c then "~" else "") +:+ p.
Lemma lx_lit c p t o k r : op_text p t o -> sep k -> lx (ltext c p +:+ k +:+ r) = ltoks c t ++ lx (k +:+ r).
Proof.
  intros (H & _) Hk. unfold ltext, ltoks. destruct c; rewrite !sapp_assoc.
  - rewrite sapp_cons, snil_app, lx_sym by reflexivity. by rewrite H.
  - rewrite snil_app, H by done. done.
Qed.
Lemma p_lit c t o r : t <> Sym "~" -> (forall r, p_operand (t :: r) = Some (o, r)) -> p_literal (ltoks c t ++ r) = Some (c, o, r).
Proof.
  intros Ht Ho. unfold ltoks. destruct c; cbn [app p_literal]; [by rewrite Ho|].
  rewrite Ho. destruct t as [w|w|x]; [done|done|].
  destruct (decide (x = "~"%char)) as [->|Hc]; [done|]. destruct x as [[] [] [] [] [] [] [] []]; done.
Qed.
Lemma items_and2 p d c1 t1 o1 p1 c2 t2 o2 p2 : ident_text p d -> op_text p1 t1 o1 -> op_text p2 t2 o2 ->
  item_toks ([Word "assign"; itok p; Sym "="] ++ ltoks c1 t1 ++ [Sym "&"] ++ ltoks c2 t2 ++ [Sym ";"]) [IAssign d [(c1, o1); (c2, o2)]].
Proof.
  intros Hp (_ & N1 & O1) (_ & N2 & O2). eapply items_one; [done|done|]. intros r. cbn [app p_item].
  rewrite !decide_False by done. rewrite decide_True by done. rewrite (proj1 (itok_spec p d Hp)). cbn [mbind option_bind].
  set (L := ltoks c1 t1 ++ Sym "&" :: ltoks c2 t2 ++ Sym ";" :: r).
  replace ((ltoks c1 t1 ++ Sym "&" :: ltoks c2 t2 ++ [Sym ";"]) ++ r) with L.
  2:{ unfold L. rewrite <- !app_assoc. cbn [app]. rewrite <- app_assoc. done. }
  assert (Hlen : exists n, length L = S (S n)).
  { unfold L, ltoks. rewrite !app_length. cbn [length]. destruct c1; cbn [length]; eexists; rewrite ?Nat.add_succ_r; cbn; reflexivity. }
  destruct Hlen as [n ->]. cbn [p_expr]. unfold L. rewrite (p_lit c1 t1 o1) by done. cbn [mbind option_bind fst snd].
  rewrite (p_lit c2 t2 o2) by done. done.
Qed.
Lemma items_assign1 p d c t o q : ident_text p d -> op_text q t o ->
  item_toks ([Word "assign"; itok p; Sym "="] ++ ltoks c t ++ [Sym ";"]) [IAssign d [(c, o)]].
Proof.
  intros Hp (_ & N1 & O1). eapply items_one; [done|done|]. intros r. cbn [app p_item].
  rewrite !decide_False by done. rewrite decide_True by done. rewrite (proj1 (itok_spec p d Hp)). cbn [mbind option_bind].
  rewrite <- app_assoc. cbn [app].
  assert (Hlen : exists n, length (ltoks c t ++ Sym ";" :: r) = S n).
  { unfold ltoks. rewrite !app_length. cbn [length]. rewrite Nat.add_succ_r. eauto. }
  destruct Hlen as [n ->]. cbn [p_expr]. rewrite (p_lit c t o) by done. done.
Qed.

(* ---------- the network ---------- *)
Lemma gates_live s : network s -> exists gs, gates s = Some gs /\ NoDup gs /\ forall n, n ∈ gs <-> is_gate s n /\ is_dead s n = Some false.
Proof.
  intros W. unfold gates. rewrite sieve_spec.
  - eexists. split; [reflexivity|]. split; [apply NoDup_filter, NoDup_seq|].
    intros n. rewrite elem_of_list_filter, elem_of_seq. unfold is_ci. split.
    + intros [H [H1 H2]]. destruct (lookup_lt_is_Some_2 (ks s) n) as [[a b] E]; [unfold size in *; lia|].
      rewrite E in H. cbn in H. destruct (is_dead s n) as [dd|]; [|done]. cbn in H.
      destruct (bool_decide_reflect (a = b)) as [->|Hab]; cbn in H; [congruence|]. split; [|destruct dd; cbn in H; congruence].
      exists a, b. split; [done|]. split; [lia|done].
    + intros [Hg Hd]. destruct Hg as (a & b & E & Hn & Hab). rewrite E. cbn.
      rewrite Hd. rewrite bool_decide_false by done. cbn. split; [done|]. apply lookup_lt_Some in E. unfold size. lia.
  - intros n [H1 H2]%elem_of_seq. unfold is_ci, is_dead.
    destruct (lookup_lt_is_Some_2 (ks s) n) as [[a b] E]; [unfold size in *; lia|]. rewrite E. cbn.
    destruct (lookup_lt_is_Some_2 (fo s) n) as [h Hh]; [rewrite (net_fo _ W); lia|]. rewrite Hh. cbn. eauto.
Qed.
Lemma name_pis_spec ns : forall xs nm, NoDup ns -> length ns <= length xs -> Forall (fun n => n < length nm) ns ->
  exists nm', name_pis ns xs nm = Some nm' /\ length nm' = length nm /\
    (forall k n x, ns !! k = Some n -> xs !! k = Some x -> nm' !! n = Some x) /\ (forall n, n ∉ ns -> nm' !! n = nm !! n).
Proof.
  induction ns as [|m ns IH]; intros xs nm Hnd Hl Hlt; [by exists nm|].
  destruct xs as [|x xs]; [cbn in Hl; lia|]. cbn [name_pis]. apply NoDup_cons in Hnd as [Hm Hnd]. apply Forall_cons in Hlt as [Hlt1 Hlt2].
  destruct (IH xs (<[m:=x]> nm)) as (nm' & E & L & H1 & H2); [done|cbn in Hl; lia|by rewrite insert_length|].
  exists nm'. rewrite insert_length in L. split; [done|]. split; [done|]. split.
  - intros [|k] n y Hk Hx; cbn in Hk, Hx.
    + assert (m = n) as -> by congruence. rewrite H2 by done. rewrite list_lookup_insert by done. congruence.
    + by eapply H1.
  - intros n [Hn1 Hn2]%not_elem_of_cons. rewrite H2 by done. by rewrite list_lookup_insert_ne.
Qed.

Definition gateA (s : aig) (n : nat) : bool :=
  bool_decide (n <> 0) && match ks s !! n with Some (a, b) => bool_decide (a <> b) | None => false end.
Lemma gateA_spec s n : gateA s n = true <-> is_gate s n.
Proof.
  unfold gateA, is_gate. split.
  - intros [H1%bool_decide_eq_true H2]%andb_prop. destruct (ks s !! n) as [[a b]|]; [|done]. apply bool_decide_eq_true in H2. eauto.
  - intros (a & b & -> & H1 & H2). rewrite !bool_decide_true; done.
Qed.
Lemma lx_and r : lx (" & " +:+ r) = Sym "&" :: lx r. Proof. reflexivity. Qed.
Lemma lx_assign2 r : lx ("  assign " +:+ r) = Word "assign" :: lx r. Proof. reflexivity. Qed.
Lemma lx_module2 r : lx ("module top( " +:+ r) = Word "module" :: Word "top" :: Sym "(" :: lx r. Proof. reflexivity. Qed.
Lemma lx_close2 r : lx (" );" +:+ r) = Sym ")" :: Sym ";" :: lx r. Proof. reflexivity. Qed.
Lemma lx_wire2 r : lx ("  wire " +:+ r) = Word "wire" :: lx r. Proof. reflexivity. Qed.
Lemma decl_flat {B} (g : item -> list B) f ds given : flat_map g (decl_items f ds given) =
  match given with [] => g (f ds) | _ => flat_map (fun d => g (f [d])) ds end.
Proof. destruct given; cbn [decl_items flat_map]; [apply app_nil_r|apply flat_map_map]. Qed.
Lemma decl_nil {B} (g : item -> list B) f ds given : (forall l, g (f l) = []) -> flat_map g (decl_items f ds given) = [].
Proof. intros H. rewrite decl_flat. destruct given; [apply H|]. by apply flat_map_nil. Qed.
Lemma decl_all (g : item -> list string) f ds given : (forall l, g (f l) = l) -> flat_map g (decl_items f ds given) = ds.
Proof.
  intros H. rewrite decl_flat. destruct given; [apply H|]. rewrite (flat_map_ext_in _ (fun d => [d])) by (intros; apply H).
  rewrite flat_map_one. apply map_id.
Qed.
Lemma decl_elem f ds given i : i ∈ decl_items f ds given -> exists l, i = f l.
Proof. destruct given; cbn [decl_items]; intros H; [apply elem_of_list_singleton in H; eauto|]. apply elem_of_list_fmap in H as (d & -> & _). eauto. Qed.

Section verilog.
  Context (s : aig) (ps : ports).
  Context (W : network s) (Hni : length (ins s) = npi s) (Hno : length (outs s) = npo s).
  Context (ids ods : list string).
  Context (Hids : Forall2 ident_text (v_ins s ps) ids) (Hods : Forall2 ident_text (v_outs s ps) ods).
  Context (Hil : length ids = npi s) (Hol : length ods = npo s).
  Context (Hnd : NoDup (ids ++ ods)) (Hng : forall n, gate_name n ∉ ids ++ ods).
  Context (Hpi : 0 < npi s) (Hpo : 0 < npo s).
  Context (Hlive : forall n, in_use s n -> is_gate s n -> is_dead s n = Some false).
  Context (gs : list nat) (Egs : gates s = Some gs) (Gnd : NoDup gs) (Gs : forall n, n ∈ gs <-> is_gate s n /\ is_dead s n = Some false).
  Context (tl : list nat) (Etl : aig_topo s = Some tl) (Hto : topo_order (aig_fan s) (0 :: ins s) (map sidx (outs s)) tl)
    (Hlt : Forall (fun n => n < size s) tl).

  Local Definition nm (c : nat) : string := if gateA s c then gate_name c else default "" (assoc (zip (ins s) ids) c).
  Local Definition ptext (c : nat) : string :=
    if decide (c = 0) then "1'b0" else if gateA s c then gate_name c else default "" (assoc (zip (ins s) (v_ins s ps)) c).
  Local Definition nop (c : nat) : operand := if decide (c = 0) then OConst false else OId (nm c).
  Local Definition ntok (c : nat) : token := if decide (c = 0) then Word "1'b0" else itok (ptext c).
  Local Definition lit (f : signal) : bool * operand := (scompl f, nop (sidx f)).
  Local Definition T := filter (fun n => gateA s n = true) tl.
  Local Definition gitem (n : nat) : item :=
    IAssign (gate_name n) (match ks s !! n with Some (a, b) => [lit a; lit b] | None => [] end).
  Local Definition gtoks (n : nat) : list token :=
    match ks s !! n with
    | Some (a, b) => [Word "assign"; itok (gate_name n); Sym "="] ++ ltoks (scompl a) (ntok (sidx a)) ++ [Sym "&"] ++ ltoks (scompl b) (ntok (sidx b)) ++ [Sym ";"]
    | None => []
    end.
  Local Definition POS := zip (seq 0 (length (pos s))) (pos s).
  Local Definition pitem (x : nat * signal) : item := IAssign (default "" (ods !! x.1)) [lit x.2].
  Local Definition ptoks (x : nat * signal) : list token :=
    [Word "assign"; itok (default "" (v_outs s ps !! x.1)); Sym "="] ++ ltoks (scompl x.2) (ntok (sidx x.2)) ++ [Sym ";"].
  Local Definition wires : list item := match gs with [] => [] | _ => [IWire (map gate_name gs)] end.
  Local Definition VAST : vmod := VMod "top" (ids ++ ods)
    (decl_items IIn ids (in_names ps) ++ decl_items IOut ods (out_names ps) ++ wires ++ map gitem T ++ map pitem POS).

  Lemma v_pis : pis s = ins s.
  Proof using All. unfold pis. rewrite <- Hni. apply firstn_all. Qed.
  Lemma v_pos : pos s = outs s.
  Proof using All. unfold pos. rewrite <- Hno. apply firstn_all. Qed.
  Lemma v_ins_len : length (v_ins s ps) = length ids.
  Proof using All. by eapply Forall2_length. Qed.
  Lemma v_outs_len : length (v_outs s ps) = length ods.
  Proof using All. by eapply Forall2_length. Qed.
  Lemma v_ins_given : in_names ps = [] \/ in_names ps = v_ins s ps.
  Proof using All. unfold v_ins. destruct (in_names ps); [by left|by right]. Qed.
  Lemma v_outs_given : out_names ps = [] \/ out_names ps = v_outs s ps.
  Proof using All. unfold v_outs. destruct (out_names ps); [by left|by right]. Qed.
  Lemma v_ins_nd : NoDup (ins s) /\ 0 ∉ ins s.
  Proof using All. pose proof (net_ins_nodup s W) as H. apply NoDup_cons in H. tauto. Qed.
  Lemma v_input k n : ins s !! k = Some n -> n <> 0 /\ gateA s n = false /\ exists p d, v_ins s ps !! k = Some p /\ ids !! k = Some d /\
    ptext n = p /\ nm n = d /\ ident_text p d.
  Proof using All.
    intros Hk. destruct (net_in s W k n Hk) as [Hn0 Ek].
    assert (Hg : gateA s n = false). { unfold gateA. rewrite Ek. rewrite (bool_decide_false (sig_of_data k <> sig_of_data k)) by (intros H; by apply H). by rewrite andb_false_r. }
    split; [done|]. split; [done|].
    destruct (lookup_lt_is_Some_2 ids k) as [d Hd]. { rewrite Hil, <- Hni. by eapply lookup_lt_Some. }
    destruct (Forall2_lookup_r _ _ _ _ _ Hids Hd) as (p & Hp & Ht). exists p, d. unfold ptext, nm. rewrite Hg. rewrite decide_False by done.
    rewrite (assoc_zip (ins s) (v_ins s ps) k n p), (assoc_zip (ins s) ids k n d) by (done || apply v_ins_nd). done.
  Qed.
  Lemma v_cases c : c < size s -> c = 0 \/ (c <> 0 /\ exists k, ins s !! k = Some c) \/ (c <> 0 /\ gateA s c = true).
  Proof using All.
    intros H. destruct (net_cases s c W H) as [->|[[k Hk]|(Hn0 & a & b & E & Hab)]]; [by left|right; left|right; right].
    - split; [|eauto]. by destruct (net_in s W k c Hk).
    - split; [done|]. apply gateA_spec. by exists a, b.
  Qed.
  Lemma v_op c : c < size s -> op_text (ptext c) (ntok c) (nop c).
  Proof using All.
    intros H. unfold ntok, nop. destruct (v_cases c H) as [->|[[H0 [k Hk]]|[H0 Hg]]]; [by apply op_zero| |].
    - rewrite !decide_False by done. destruct (v_input k c Hk) as (_ & _ & p & d & _ & _ & -> & -> & Ht). by apply op_ident.
    - rewrite !decide_False by done. unfold ptext, nm. rewrite decide_False by done. rewrite Hg. apply op_ident, simple_text, gate_ident.
  Qed.
  Lemma v_lit f k r : sidx f < size s -> sep k -> lx (ltext (scompl f) (ptext (sidx f)) +:+ k +:+ r) = ltoks (scompl f) (ntok (sidx f)) ++ lx (k +:+ r).
  Proof using All. intros H Hk. eapply lx_lit; [by apply v_op|done]. Qed.

  Lemma v_gate_keys n : gateA s n = true -> exists a b, ks s !! n = Some (a, b) /\ n <> 0 /\ a <> b /\ fanin s n (sidx a) /\ fanin s n (sidx b) /\ sidx a < size s /\ sidx b < size s.
  Proof using All.
    intros (a & b & E & H0 & Hab)%gateA_spec. exists a, b.
    assert (Fa : fanin s n (sidx a)) by (exists a, b; naive_solver). assert (Fb : fanin s n (sidx b)) by (exists a, b; naive_solver).
    repeat split; try done; by eapply net_gate.
  Qed.
  Lemma v_gates_spec l2 : forall l1 m, tl = l1 ++ l2 -> length m = size s -> (forall c, c ∈ 0 :: ins s \/ c ∈ l1 -> m !! c = Some (ptext c)) ->
    exists t m', v_gates s m l2 = Some (t, m') /\ clean t (flat_map gtoks (filter (fun n => gateA s n = true) l2)) /\
      forall c, c ∈ tl -> m' !! c = Some (ptext c).
  Proof using All.
    induction l2 as [|n l2 IH]; intros l1 m El Hm Hc.
    { exists "", m. split; [done|]. split; [apply clean_nil|]. intros c Hx. apply Hc. right. rewrite El, app_nil_r in Hx. done. }
    assert (Hn : tl !! length l1 = Some n). { rewrite El. by rewrite list_lookup_middle. }
    assert (Hsz : n < size s). { rewrite Forall_forall in Hlt. apply Hlt. by eapply elem_of_list_lookup_2. }
    assert (Hstep : forall m' : list string, m' !! n = Some (ptext n) -> (forall c, c <> n -> m' !! c = m !! c) -> forall c, c ∈ 0 :: ins s \/ c ∈ l1 ++ [n] -> m' !! c = Some (ptext c)).
    { intros m' H1 H2 c Hx. destruct (decide (c = n)) as [->|Hcn]; [done|]. rewrite H2 by done. apply Hc. destruct Hx as [Hx|Hx]; [by left|right].
      apply elem_of_app in Hx as [Hx|Hx]; [done|]. by apply elem_of_list_singleton in Hx. }
    cbn [v_gates]. destruct (v_cases n Hsz) as [->|[[H0 [k Hk]]|[H0 Hg]]].
    - unfold is_pi. rewrite (net_const s W). cbn [mbind option_bind]. rewrite (bool_decide_true (0 = 0)) by done. cbn [orb].
      rewrite filter_cons, decide_False by (unfold gateA; cbn; done).
      apply (IH (l1 ++ [0])); [by rewrite <- app_assoc|done|]. apply Hstep; [|done]. apply Hc. left. left.
    - unfold is_pi. destruct (net_in s W k n Hk) as [_ Ek]. rewrite Ek. cbn [mbind option_bind fst snd]. rewrite sdata_sig_of_data.
      rewrite (bool_decide_true (sig_of_data k = _)) by done. rewrite (bool_decide_true (k < npi s)) by (rewrite <- Hni; by eapply lookup_lt_Some).
      rewrite orb_true_r. destruct (v_input k n Hk) as (_ & Hg & _). rewrite filter_cons, decide_False by (by rewrite Hg).
      apply (IH (l1 ++ [n])); [by rewrite <- app_assoc|done|]. apply Hstep; [|done]. apply Hc. left. right. by eapply elem_of_list_lookup_2.
    - destruct (v_gate_keys n Hg) as (a & b & Ek & _ & Hab & Fa & Fb & La & Lb).
      unfold is_pi at 1. rewrite Ek. cbn [mbind option_bind fst snd]. rewrite (bool_decide_false (a = b)), (bool_decide_false (n = 0)) by done. cbn [orb andb].
      unfold fanins. rewrite decide_False by done. unfold is_ci. rewrite Ek. cbn [mbind option_bind fst snd]. rewrite (bool_decide_false (a = b)) by done.
      cbn zeta. set (m' := <[n:=gate_name n]> m).
      assert (H1 : m' !! n = Some (ptext n)). { unfold m'. rewrite list_lookup_insert by lia. unfold ptext. rewrite decide_False by done. by rewrite Hg. }
      assert (H2 : forall c, c <> n -> m' !! c = m !! c). { intros c Hcn. unfold m'. by rewrite list_lookup_insert_ne. }
      pose proof (Hstep m' H1 H2) as H3.
      assert (Hbefore : forall c, fanin s n c -> m' !! c = Some (ptext c)).
      { intros c Hf. apply H3. right. destruct (to_after _ _ _ _ Hto _ n c Hn (proj2 (edge_fanin s n c W) Hf)) as (j & Hj & Ej).
        apply elem_of_app. left. rewrite El in Ej. rewrite lookup_app_l in Ej by done. by eapply elem_of_list_lookup_2. }
      cbn [mbind option_bind opt_map]. unfold lit_text. rewrite (Hbefore _ Fa), (Hbefore _ Fb). cbn [mbind option_bind].
      destruct (IH (l1 ++ [n]) m') as (t & m2 & E & Ct & Hm2); [by rewrite <- app_assoc|unfold m'; by rewrite insert_length|done|].
      fold m'. rewrite E. cbn [mbind option_bind fst snd]. eexists _, _. split; [reflexivity|]. split; [|done].
      rewrite filter_cons, decide_True by done. cbn [flat_map]. intros r. rewrite <- app_assoc, <- Ct.
      unfold gtoks. rewrite Ek. cbn [join]. rewrite !sapp_assoc, lx_assign2.
      rewrite (lx_id (gate_name n) (gate_name n)) by (done || apply simple_text, gate_ident). rewrite lx_eq.
      pose proof (v_lit a " & " ((if scompl b then "~" else "") +:+ ptext (sidx b) +:+ " ;" +:+ nl +:+ t +:+ r) La eq_refl) as La'.
      pose proof (v_lit b " ;" (nl +:+ t +:+ r) Lb eq_refl) as Lb'. unfold ltext in La', Lb'. rewrite !sapp_assoc in La', Lb'.
      rewrite La', lx_and, Lb', lx_semi, lx_nl. cbn [app]. rewrite <- !app_assoc. cbn [app]. rewrite <- !app_assoc. done.
  Qed.

  Lemma v_pos_elem x : x ∈ POS -> x.1 < npo s /\ outs s !! x.1 = Some x.2 /\ sidx x.2 ∈ tl.
  Proof using All.
    intros H. apply elem_of_list_lookup in H as [i H]. unfold POS in H. rewrite v_pos in H. apply lookup_zip_with_Some in H as (a & b & -> & Ha & Hb).
    apply lookup_seq in Ha as [-> ?]. cbn. split; [lia|]. split; [done|]. apply (to_elem _ _ _ _ Hto). right. exists (sidx b).
    split; [|done]. apply elem_of_list_fmap_1. by eapply elem_of_list_lookup_2.
  Qed.
  Lemma v_tl_lt c : c ∈ tl -> c < size s.
  Proof using All. rewrite Forall_forall in Hlt. apply Hlt. Qed.
  Lemma v_po_name i : i < npo s -> exists p d, v_outs s ps !! i = Some p /\ ods !! i = Some d /\ ident_text p d.
  Proof using All.
    intros H. destruct (lookup_lt_is_Some_2 ods i) as [d Hd]; [by rewrite Hol|].
    destruct (Forall2_lookup_r _ _ _ _ _ Hods Hd) as (p & Hp & Ht). eauto.
  Qed.
  Lemma v_po_spec (m : list string) x : (forall c, c ∈ tl -> m !! c = Some (ptext c)) -> x ∈ POS -> exists t, v_po m (v_outs s ps) x = Some t /\ clean t (ptoks x).
  Proof using All.
    intros Hm H. destruct (v_pos_elem x H) as (Hi & Ho & Htl). destruct (v_po_name _ Hi) as (p & d & Hp & Hd & Ht).
    unfold v_po. rewrite Hp. cbn [mbind option_bind]. unfold lit_text. rewrite (Hm _ Htl). cbn [mbind option_bind]. eexists. split; [reflexivity|].
    intros r. unfold ptoks. rewrite Hp. cbn [default]. rewrite !sapp_assoc, lx_assign2. rewrite (lx_id p d) by done. rewrite lx_eq.
    pose proof (v_lit x.2 " ;" (nl +:+ r) (v_tl_lt _ Htl) eq_refl) as L. unfold ltext in L. rewrite !sapp_assoc in L. rewrite L, lx_semi, lx_nl.
    cbn [app]. rewrite <- app_assoc. done.
  Qed.
  Lemma v_pitem x : x ∈ POS -> item_toks (ptoks x) [pitem x].
  Proof using All.
    intros H. destruct (v_pos_elem x H) as (Hi & Ho & Htl). destruct (v_po_name _ Hi) as (p & d & Hp & Hd & Ht).
    unfold ptoks, pitem. rewrite Hp, Hd. cbn [default]. eapply items_assign1; [done|by apply v_op, v_tl_lt].
  Qed.
  Lemma v_gitem n : gateA s n = true -> item_toks (gtoks n) [gitem n].
  Proof using All.
    intros Hg. destruct (v_gate_keys n Hg) as (a & b & Ek & _ & _ & _ & _ & La & Lb). unfold gtoks, gitem. rewrite Ek.
    eapply items_and2; [apply simple_text, gate_ident|by apply v_op|by apply v_op].
  Qed.
  Local Definition wire_toks : list token := match gs with [] => [] | _ => Word "wire" :: commas (map itok (map gate_name gs)) ++ [Sym ";"] end.
  Lemma v_wnames : Forall2 ident_text (map gate_name gs) (map gate_name gs).
  Proof using All. rewrite Forall2_fmap_l, Forall2_fmap_r. apply Forall_Forall2_diag, Forall_forall. intros n _. apply simple_text, gate_ident. Qed.
  Lemma v_wires_clean : clean (match map gate_name gs with [] => "" | _ => "  wire " +:+ join " , " (map gate_name gs) +:+ " ;" +:+ nl end) wire_toks.
  Proof using All.
    pose proof v_wnames as Hw. unfold wire_toks. destruct gs as [|g gl']; [apply clean_nil|]. cbn [map]. cbn [map] in Hw. intros r.
    rewrite !sapp_assoc, lx_wire2. rewrite (lx_join _ _ " ;" (nl +:+ r) Hw) by done. rewrite lx_semi, lx_nl. cbn [app]. rewrite <- app_assoc. done.
  Qed.
  Lemma v_wires_items : item_toks wire_toks wires.
  Proof using All.
    pose proof v_wnames as Hw. unfold wire_toks, wires. destruct gs as [|g gl']; [apply items_nil|]. apply items_list; [by right; right|exact Hw|done].
  Qed.
  Lemma v_ins_ne : v_ins s ps <> [].
  Proof using All. intros E. pose proof v_ins_len as H. rewrite E in H. cbn in H. lia. Qed.
  Lemma v_outs_ne : v_outs s ps <> [].
  Proof using All. intros E. pose proof v_outs_len as H. rewrite E in H. cbn in H. lia. Qed.

  Theorem verilog_text_reads : exists t, write_verilog s ps = Some t /\ read_module t = Some VAST.
  Proof using All.
    unfold write_verilog, is_combinational. rewrite bool_decide_true by done. rewrite Egs. cbn [mbind option_bind].
    destruct (name_pis_spec (pis s) (v_ins s ps) (<[0 := "1'b0"]> (repeat "" (size s)))) as (m & Em & Lm & M1 & M2).
    { rewrite v_pis. apply v_ins_nd. }
    { rewrite v_pis, v_ins_len, Hil, Hni. done. }
    { rewrite v_pis, insert_length, repeat_length. by apply net_ins_valid. }
    rewrite insert_length, repeat_length in Lm. rewrite v_pis in M1, M2. rewrite Em. cbn [mbind option_bind]. rewrite Etl. cbn [mbind option_bind].
    destruct (v_gates_spec tl [] m eq_refl Lm) as (gt & m2 & Eg & Cg & Hm2).
    { intros c [[->|H]%elem_of_cons|H]; [| |by apply elem_of_nil in H].
      - rewrite M2 by apply v_ins_nd. rewrite list_lookup_insert; [done|]. rewrite repeat_length. by apply net_size.
      - apply elem_of_list_lookup in H as [k Hk]. destruct (v_input k c Hk) as (_ & _ & p & d & Hp & _ & -> & _). by eapply M1. }
    rewrite Eg. cbn [mbind option_bind fst snd].
    assert (exists ts, opt_map (v_po m2 (v_outs s ps)) POS = Some ts /\ clean (cats ts) (flat_map ptoks POS)) as (ts & Ets & Hts).
    { assert (HP : forall x, x ∈ POS -> exists t, v_po m2 (v_outs s ps) x = Some t /\ clean t (ptoks x)) by (intros; by apply v_po_spec).
      clear -HP. induction POS as [|x l IH]; [exists []; split; [done|apply clean_nil]|].
      destruct (HP x) as (t & Et & Ht); [left|]. destruct IH as (ts & Ets & Hts); [intros y Hy; apply HP; by right|].
      exists (t :: ts). cbn [opt_map flat_map]. rewrite Et. cbn [mbind option_bind]. rewrite Ets. cbn [mbind option_bind]. split; [done|]. change (clean (t +:+ cats ts) (ptoks x ++ flat_map ptoks l)). by apply clean_app. }
    fold POS. rewrite Ets. cbn [mbind option_bind]. eexists. split; [reflexivity|].
    set (bt := decl_toks "input" (v_ins s ps) (in_names ps) ++ decl_toks "output" (v_outs s ps) (out_names ps) ++ wire_toks ++ flat_map gtoks T ++ flat_map ptoks POS).
    unfold read_module. rewrite lx_module2.
    assert (Hpp : Forall2 ident_text (v_ins s ps ++ v_outs s ps) (ids ++ ods)) by (by apply Forall2_app).
    assert (Hne : v_ins s ps ++ v_outs s ps <> []). { intros [E0 _]%app_eq_nil. by apply v_ins_ne. }
    rewrite (lx_join _ _ " );" _ Hpp Hne) by done. rewrite lx_close2, lx_nl.
    rewrite (clean_on_decl "input" (v_ins s ps) (in_names ps) ids ltac:(split; [done|repeat constructor]) Hids v_ins_ne v_ins_given).
    rewrite (clean_on_decl "output" (v_outs s ps) (out_names ps) ods ltac:(split; [done|repeat constructor]) Hods v_outs_ne v_outs_given).
    rewrite v_wires_clean, Cg, Hts. change (lx ("endmodule" +:+ nl)) with [Word "endmodule"].
    assert (Hb : decl_toks "input" (v_ins s ps) (in_names ps) ++ decl_toks "output" (v_outs s ps) (out_names ps) ++ wire_toks ++
       flat_map gtoks (filter (fun n => gateA s n = true) tl) ++ flat_map ptoks POS ++ [Word "endmodule"] = bt ++ [Word "endmodule"]).
    { unfold bt, T. rewrite <- !app_assoc. done. }
    rewrite Hb. clear Hb.
    assert (Hitems : item_toks bt (vitems VAST)).
    { unfold bt. cbn [vitems VAST]. repeat apply items_app.
      - apply items_on_decl; [by left|done|apply v_ins_ne].
      - apply items_on_decl; [by right; left|done|apply v_outs_ne].
      - apply v_wires_items.
      - rewrite <- (flat_map_one gitem T). apply items_flat. intros n [Hn _]%elem_of_list_filter. by apply v_gitem.
      - rewrite <- (flat_map_one pitem POS). apply items_flat. intros x Hx. by apply v_pitem. }
    cbn [p_module]. rewrite decide_True by done. change (ident (Word "top")) with (Some "top"). cbn [mbind option_bind].
    assert (Hids2 : p_ids (commas (map itok (v_ins s ps ++ v_outs s ps)) ++ Sym ")" :: Sym ";" :: bt ++ [Word "endmodule"]) =
       Some (ids ++ ods, Sym ")" :: Sym ";" :: bt ++ [Word "endmodule"])).
    { apply p_ids_commas; [|by apply toks_idents|done]. intros E1%fmap_nil_inv. done. }
    destruct (commas_head _ _ Hpp Hne) as (t & r & Et & Ht).
    rewrite Et in *. cbn [app] in *.
    assert (Hm : match t with Sym ")" => Some (@nil string, t :: r ++ Sym ")" :: Sym ";" :: bt ++ [Word "endmodule"]) | _ => p_ids (t :: r ++ Sym ")" :: Sym ";" :: bt ++ [Word "endmodule"]) end =
       p_ids (t :: r ++ Sym ")" :: Sym ";" :: bt ++ [Word "endmodule"])).
    { destruct t as [w|w|c]; [done|done|]. by destruct Ht. }
    replace (match t with Sym ")" => _ | _ => _ end) with (p_ids (t :: r ++ Sym ")" :: Sym ";" :: bt ++ [Word "endmodule"])) by (symmetry; exact Hm).
    rewrite Hids2. cbn [mbind option_bind fst snd].
    destruct Hitems as [Hlen Hitems]. pose proof (Hitems [Word "endmodule"] [] 1 eq_refl) as Hp. rewrite app_nil_r in Hp.
    rewrite (p_items_fuel _ _ _ _ Hp); [done|]. rewrite app_length. cbn [length]. lia.
  Qed.

  (* ---------- the module obeys the static rules ---------- *)
  Lemma wires_flat {B} (g : item -> list B) : (forall l, g (IWire l) = []) -> flat_map g wires = [].
  Proof using All. intros H. unfold wires. destruct gs; [done|]. cbn [flat_map]. by rewrite H. Qed.
  Lemma VAST_in : d_in VAST = ids.
  Proof using All.
    unfold d_in. cbn [vitems VAST]. rewrite !flat_map_app, !flat_map_map. rewrite decl_all by done. rewrite decl_nil by done.
    rewrite wires_flat, (flat_map_nil _ T), (flat_map_nil _ POS) by done. by rewrite !app_nil_r.
  Qed.
  Lemma VAST_out : d_out VAST = ods.
  Proof using All.
    unfold d_out. cbn [vitems VAST]. rewrite !flat_map_app, !flat_map_map. rewrite decl_nil by done. rewrite decl_all by done.
    rewrite wires_flat, (flat_map_nil _ T), (flat_map_nil _ POS) by done. by rewrite !app_nil_r.
  Qed.
  Lemma VAST_wire : d_wire VAST = map gate_name gs.
  Proof using All.
    unfold d_wire. cbn [vitems VAST]. rewrite !flat_map_app, !flat_map_map. rewrite !decl_nil by done.
    rewrite (flat_map_nil _ T), (flat_map_nil _ POS) by done. rewrite !app_nil_r. unfold wires. destruct gs; [done|]. cbn. by rewrite app_nil_r.
  Qed.
  Lemma VAST_insts : insts VAST = [].
  Proof using All.
    unfold insts. cbn [vitems VAST]. rewrite !flat_map_app, !flat_map_map. rewrite !decl_nil by done.
    rewrite wires_flat, (flat_map_nil _ T), (flat_map_nil _ POS) by done. done.
  Qed.
  Lemma VAST_params : params VAST = [].
  Proof using All.
    unfold params. cbn [vitems VAST]. rewrite !flat_map_app, !flat_map_map. rewrite !decl_nil by done.
    rewrite wires_flat, (flat_map_nil _ T), (flat_map_nil _ POS) by done. done.
  Qed.
  Lemma v_pos_outs : map (fun x => default "" (ods !! x.1)) POS = ods.
  Proof using All.
    apply list_eq. intros i. rewrite list_lookup_fmap. unfold POS. rewrite v_pos.
    destruct (decide (i < npo s)) as [H|H].
    - destruct (lookup_lt_is_Some_2 (outs s) i) as [f Hf]; [by rewrite Hno|].
      destruct (lookup_lt_is_Some_2 ods i) as [d Hd]; [by rewrite Hol|].
      assert (E : zip (seq 0 (length (outs s))) (outs s) !! i = Some (i, f)).
      { apply lookup_zip_with_Some. exists i, f. split; [done|]. split; [|done]. apply lookup_seq. rewrite Hno. lia. }
      rewrite E. cbn [fmap option_fmap option_map fst]. rewrite Hd. done.
    - rewrite (lookup_ge_None_2 ods) by lia. rewrite lookup_ge_None_2; [done|]. rewrite zip_with_length, Hno, seq_length. lia.
  Qed.
  Lemma VAST_driven : driven VAST = map gate_name T ++ ods.
  Proof using All.
    unfold driven. cbn [vitems VAST]. rewrite !flat_map_app, !flat_map_map. rewrite !decl_nil by done. rewrite wires_flat by done. cbn [app].
    rewrite (flat_map_ext_in _ (fun n => [gate_name n]) T) by done. rewrite (flat_map_ext_in _ (fun x => [default "" (ods !! x.1)]) POS) by done. rewrite !flat_map_one. by rewrite v_pos_outs.
  Qed.
  Lemma T_elem n : n ∈ T <-> gateA s n = true /\ n ∈ tl.
  Proof using All. unfold T. by rewrite elem_of_list_filter. Qed.
  Lemma T_nodup : NoDup T.
  Proof using All. apply NoDup_filter. apply (to_nodup _ _ _ _ Hto). Qed.
  Lemma tl_closed n c : n ∈ tl -> fanin s n c -> c ∈ tl.
  Proof using All.
    intros H Hf. apply elem_of_list_lookup in H as [i Hi]. destruct (to_after _ _ _ _ Hto i n c Hi (proj2 (edge_fanin s n c W) Hf)) as (j & _ & Ej).
    by eapply elem_of_list_lookup_2.
  Qed.
  Lemma nop_legal c d : c ∈ tl -> nop c = OId d -> d ∈ ids ++ map gate_name T ++ ods.
  Proof using All.
    intros H Ed. unfold nop in Ed. destruct (v_cases c (v_tl_lt c H)) as [->|[[H0 [k Hk]]|[H0 Hg]]]; [done| |]; rewrite decide_False in Ed by done; injection Ed as <-.
    - destruct (v_input k c Hk) as (_ & _ & p & d & _ & Hd & _ & -> & _). apply elem_of_app. left. by eapply elem_of_list_lookup_2.
    - unfold nm. rewrite Hg. apply elem_of_app. right. apply elem_of_app. left. apply elem_of_list_fmap. exists c. split; [done|]. by apply T_elem.
  Qed.
  Lemma gnames_nodup l : NoDup l -> NoDup (map gate_name l).
  Proof using All. apply NoDup_fmap_2. intros a b. apply gate_inj. Qed.
  Lemma T_gs n : n ∈ T -> n ∈ gs.
  Proof using All.
    intros [Hg Ht]%T_elem. apply gateA_spec in Hg. apply Gs. split; [done|]. apply (Hlive n); [|done].
    apply (topo_listed s tl n W Hto) in Ht as [Ht|Ht]; [|done]. exfalso. apply gateA_spec in Hg.
    apply elem_of_cons in Ht as [->|Ht]; [done|]. apply elem_of_list_lookup in Ht as [k Hk]. destruct (v_input k n Hk) as (_ & E & _). congruence.
  Qed.
  Lemma VAST_reads d : d ∈ reads VAST -> exists c, c ∈ tl /\ nop c = OId d.
  Proof using All.
    unfold reads. cbn [vitems VAST]. rewrite !flat_map_app, !flat_map_map. rewrite !decl_nil by done. rewrite wires_flat by done. cbn [app].
    intros [H|H]%elem_of_app; apply elem_flat in H as (y & Hy & Hd).
    - apply T_elem in Hy as [Hg Ht]. destruct (v_gate_keys y Hg) as (a & b & Ek & _ & _ & Fa & Fb & _). cbn [gitem] in Hd. rewrite Ek in Hd.
      cbn [flat_map lit fst snd] in Hd. rewrite app_nil_r in Hd. apply elem_of_app in Hd as [Hd|Hd].
      + exists (sidx a). split; [by eapply tl_closed|]. destruct (nop (sidx a)); [|by apply elem_of_nil in Hd]. apply elem_of_list_singleton in Hd. by subst.
      + exists (sidx b). split; [by eapply tl_closed|]. destruct (nop (sidx b)); [|by apply elem_of_nil in Hd]. apply elem_of_list_singleton in Hd. by subst.
    - destruct (v_pos_elem y Hy) as (_ & _ & Ht). exists (sidx y.2). split; [done|]. cbn [pitem flat_map lit fst snd] in Hd. rewrite app_nil_r in Hd.
      destruct (nop (sidx y.2)); [|by apply elem_of_nil in Hd]. apply elem_of_list_singleton in Hd. by subst.
  Qed.
  Lemma VAST_legal : legal VAST.
  Proof using All.
    split.
    - rewrite VAST_in, VAST_out, VAST_wire, VAST_insts, app_nil_r, app_assoc. apply NoDup_app. split; [done|]. split; [|by apply gnames_nodup].
      intros d Hd Hx. apply elem_of_list_fmap in Hx as (y & -> & _). by apply (Hng y).
    - by rewrite VAST_in, VAST_out.
    - rewrite VAST_driven, VAST_out, VAST_wire. split.
      + apply NoDup_app. split; [apply gnames_nodup, T_nodup|]. split; [|exact (proj2 (proj2 (proj1 (NoDup_app _ _) Hnd)))].
        intros d Hd Hx. apply elem_of_list_fmap in Hd as (y & -> & _). apply (Hng y). apply elem_of_app. by right.
      + apply Forall_app. split; apply Forall_forall; intros d Hd; apply elem_of_app; [right|by left].
        apply elem_of_list_fmap in Hd as (y & -> & Hy). apply elem_of_list_fmap_1. by apply T_gs.
    - rewrite VAST_in, VAST_driven. apply Forall_forall. intros d Hd. apply VAST_reads in Hd as (c & Hc & Ec). by eapply nop_legal.
    - rewrite VAST_driven, VAST_out. apply Forall_forall. intros d Hd. apply elem_of_app. by right.
    - rewrite VAST_params, VAST_insts. split; [constructor|]. split; [constructor|].
      intros k d l H. cbn [vitems VAST] in H. rewrite !elem_of_app in H.
      destruct H as [H|[H|[H|[H|H]]]].
      + apply decl_elem in H as [? H]. discriminate H.
      + apply decl_elem in H as [? H]. discriminate H.
      + unfold wires in H. destruct gs; [by apply elem_of_nil in H|]. apply elem_of_list_singleton in H. discriminate H.
      + apply elem_of_list_fmap in H as (y & E & _). discriminate E.
      + apply elem_of_list_fmap in H as (y & E & _). discriminate E.
  Qed.

  (* ---------- its meaning ---------- *)
  Lemma v_item_inv d e : IAssign d e ∈ vitems VAST ->
    (exists n a b, n ∈ T /\ ks s !! n = Some (a, b) /\ d = gate_name n /\ e = [lit a; lit b]) \/
    (exists i f, outs s !! i = Some f /\ ods !! i = Some d /\ e = [lit f]).
  Proof using All.
    intros H. cbn [vitems VAST] in H. rewrite !elem_of_app in H. destruct H as [H|[H|[H|[H|H]]]].
    - apply decl_elem in H as [? H]. discriminate H.
    - apply decl_elem in H as [? H]. discriminate H.
    - unfold wires in H. destruct gs; [by apply elem_of_nil in H|]. apply elem_of_list_singleton in H. discriminate H.
    - left. apply elem_of_list_fmap in H as (y & E & Hy). pose proof Hy as [Hg _]%T_elem. destruct (v_gate_keys y Hg) as (a & b & Ek & _).
      unfold gitem in E. rewrite Ek in E. injection E as -> ->. by exists y, a, b.
    - right. apply elem_of_list_fmap in H as (y & E & Hy). destruct (v_pos_elem y Hy) as (Hi & Ho & _). destruct (v_po_name _ Hi) as (p & d' & _ & Hd & _).
      unfold pitem in E. rewrite Hd in E. injection E as -> ->. by exists y.1, y.2.
  Qed.
  Lemma v_no_lut k d l : ILut k d l ∉ vitems VAST.
  Proof using All.
    intros H. cbn [vitems VAST] in H. rewrite !elem_of_app in H. destruct H as [H|[H|[H|[H|H]]]].
    - apply decl_elem in H as [? H]. discriminate H.
    - apply decl_elem in H as [? H]. discriminate H.
    - unfold wires in H. destruct gs; [by apply elem_of_nil in H|]. apply elem_of_list_singleton in H. discriminate H.
    - apply elem_of_list_fmap in H as (y & E & _). discriminate E.
    - apply elem_of_list_fmap in H as (y & E & _). discriminate E.
  Qed.
  Lemma v_item_gate n a b : n ∈ T -> ks s !! n = Some (a, b) -> IAssign (gate_name n) [lit a; lit b] ∈ vitems VAST.
  Proof using All.
    intros Hn Ek. cbn [vitems VAST]. rewrite !elem_of_app. right; right; right; left. apply elem_of_list_fmap. exists n. split; [|done]. unfold gitem. by rewrite Ek.
  Qed.
  Lemma v_item_po i f d : outs s !! i = Some f -> ods !! i = Some d -> IAssign d [lit f] ∈ vitems VAST.
  Proof using All.
    intros Hf Hd. cbn [vitems VAST]. rewrite !elem_of_app. right; right; right; right. apply elem_of_list_fmap. exists (i, f). unfold pitem. cbn [fst snd]. rewrite Hd.
    split; [done|]. apply elem_of_list_lookup. exists i. unfold POS. rewrite v_pos. apply lookup_zip_with_Some. exists i, f. split; [done|]. split; [|done].
    apply lookup_seq. split; [done|]. by eapply lookup_lt_Some.
  Qed.
  Lemma v_out_tl i f : outs s !! i = Some f -> sidx f ∈ tl.
  Proof using All.
    intros H. apply (to_elem _ _ _ _ Hto). right. exists (sidx f). split; [|done]. apply elem_of_list_fmap_1. by eapply elem_of_list_lookup_2.
  Qed.
  Lemma v_map_pointwise (rho : string -> bool) v : (forall i f d, outs s !! i = Some f -> ods !! i = Some d -> rho d = sval v f) ->
    map rho ods = map (sval v) (pos s).
  Proof using All.
    intros H. rewrite v_pos. apply list_eq. intros i. rewrite !list_lookup_fmap. destruct (decide (i < npo s)) as [L|L].
    - destruct (lookup_lt_is_Some_2 (outs s) i) as [f Hf]; [by rewrite Hno|].
      destruct (lookup_lt_is_Some_2 ods i) as [d Hd]; [by rewrite Hol|]. rewrite Hf, Hd. cbn. f_equal. by eapply H.
    - rewrite !lookup_ge_None_2; [done|rewrite Hno; lia|lia].
  Qed.
  Lemma VAST_sound env l : mod_computes VAST env l -> computes s env l.
  Proof using All.
    intros (rho & [Ha _] & Henv & ->). rewrite VAST_in in Henv. rewrite VAST_out. destruct (net_valuation s env W) as [v V]. exists v. split; [done|].
    assert (Hv : forall i n, tl !! i = Some n -> oval rho (nop n) = v n).
    { intros i. induction (lt_wf i) as [i _ IH]. intros n Hn. pose proof (elem_of_list_lookup_2 _ _ _ Hn) as Hin.
      destruct (v_cases n (v_tl_lt n Hin)) as [->|[[H0 [k Hk]]|[H0 Hg]]].
      - cbn. by rewrite (val_const _ _ _ V).
      - unfold nop. rewrite decide_False by done. cbn [oval]. destruct (v_input k n Hk) as (_ & _ & p & d & _ & Hd & _ & -> & _).
        rewrite (val_input _ _ _ V k n Hk). by apply Henv.
      - destruct (v_gate_keys n Hg) as (a & b & Ek & _ & Hab & Fa & Fb & _).
        assert (Hf : forall c, fanin s n c -> oval rho (nop c) = v c).
        { intros c Hf. destruct (to_after _ _ _ _ Hto i n c Hn (proj2 (edge_fanin s n c W) Hf)) as (j & Hj & Ej). by eapply IH. }
        unfold nop. rewrite decide_False by done. cbn [oval]. unfold nm. rewrite Hg.
        rewrite (Ha _ _ (v_item_gate n a b (proj2 (T_elem n) (conj Hg Hin)) Ek)). unfold eval_expr. cbn [forallb lit fst snd].
        rewrite (Hf _ Fa), (Hf _ Fb), (val_gate _ _ _ V n a b Ek H0 Hab), andb_true_r. unfold sval. f_equal; apply xorb_comm. }
    apply v_map_pointwise. intros i f d Hf Hd. rewrite (Ha _ _ (v_item_po i f d Hf Hd)). unfold eval_expr. cbn [forallb lit fst snd]. rewrite andb_true_r.
    pose proof (v_out_tl i f Hf) as Ht. apply elem_of_list_lookup in Ht as [j Hj]. rewrite (Hv j _ Hj). apply xorb_comm.
  Qed.
  Lemma VAST_complete env l : computes s env l -> mod_computes VAST env l.
  Proof using All.
    intros (v & V & ->).
    set (keys := (ids ++ ods) ++ map gate_name T). set (vals := (map v (ins s) ++ map (sval v) (outs s)) ++ map v T).
    set (rho := sassoc keys vals).
    assert (Hkeys : NoDup keys).
    { apply NoDup_app. split; [done|]. split; [|apply gnames_nodup, T_nodup].
      intros d Hd Hx. apply elem_of_list_fmap in Hx as (y & -> & _). by apply (Hng y). }
    assert (R1 : forall k n d, ins s !! k = Some n -> ids !! k = Some d -> rho d = v n).
    { intros k n d Hn Hd. pose proof (lookup_lt_Some _ _ _ Hn) as L1. pose proof (lookup_lt_Some _ _ _ Hd) as L2.
      apply (sassoc_lookup keys vals k); [done| |].
      - unfold keys. rewrite lookup_app_l by (rewrite app_length; lia). by rewrite lookup_app_l.
      - unfold vals. rewrite lookup_app_l by (rewrite app_length, map_length; lia). rewrite lookup_app_l by (by rewrite map_length).
        rewrite list_lookup_fmap, Hn. done. }
    assert (R2 : forall i f d, outs s !! i = Some f -> ods !! i = Some d -> rho d = sval v f).
    { intros i f d Hf Hd. pose proof (lookup_lt_Some _ _ _ Hf) as L1. pose proof (lookup_lt_Some _ _ _ Hd) as L2.
      apply (sassoc_lookup keys vals (length ids + i)); [done| |].
      - unfold keys. rewrite lookup_app_l by (rewrite app_length; lia). rewrite lookup_app_r by lia. rewrite Nat.add_comm, Nat.add_sub. done.
      - unfold vals. rewrite lookup_app_l by (rewrite app_length, !map_length; lia). rewrite lookup_app_r by (rewrite map_length; lia). rewrite map_length, Hil, Hni, Nat.add_comm, Nat.add_sub.
        rewrite list_lookup_fmap, Hf. done. }
    assert (R3 : forall n, n ∈ T -> rho (gate_name n) = v n).
    { intros n Hn. apply elem_of_list_lookup in Hn as [i Hi].
      apply (sassoc_lookup keys vals (length (ids ++ ods) + i)); [done| |].
      - unfold keys. rewrite lookup_app_r by lia. rewrite Nat.add_comm, Nat.add_sub. rewrite list_lookup_fmap, Hi. done.
      - unfold vals. assert (L : length (map v (ins s) ++ map (sval v) (outs s)) = length (ids ++ ods)). { rewrite !app_length, !map_length. lia. }
        rewrite lookup_app_r by lia. rewrite L, Nat.add_comm, Nat.add_sub, list_lookup_fmap, Hi. done. }
    assert (Hop : forall c, c ∈ tl -> oval rho (nop c) = v c).
    { intros c Hc. destruct (v_cases c (v_tl_lt c Hc)) as [->|[[H0 [k Hk]]|[H0 Hg]]].
      - cbn. by rewrite (val_const _ _ _ V).
      - unfold nop. rewrite decide_False by done. cbn [oval]. destruct (v_input k c Hk) as (_ & _ & p & d & _ & Hd & _ & -> & _). by eapply R1.
      - unfold nop. rewrite decide_False by done. cbn [oval]. unfold nm. rewrite Hg. apply R3. by apply T_elem. }
    exists rho. split; [split|split].
    - intros d e Hit. destruct (v_item_inv d e Hit) as [(n & a & b & Hn & Ek & -> & ->)|(i & f & Hf & Hd & ->)].
      + rewrite (R3 n Hn). pose proof Hn as [Hg Ht]%T_elem. destruct (v_gate_keys n Hg) as (a' & b' & Ek' & H0 & Hab & Fa & Fb & _).
        rewrite Ek in Ek'. injection Ek' as <- <-. rewrite (val_gate _ _ _ V n a b Ek H0 Hab). unfold eval_expr. cbn [forallb lit fst snd].
        rewrite !Hop by (by eapply tl_closed). rewrite andb_true_r. unfold sval. f_equal; apply xorb_comm.
      + rewrite (R2 _ _ _ Hf Hd). unfold eval_expr. cbn [forallb lit fst snd]. rewrite Hop by (by eapply v_out_tl). rewrite andb_true_r. apply xorb_comm.
    - intros k d l sz w Hi1. by apply v_no_lut in Hi1.
    - rewrite VAST_in. intros k d Hd. destruct (lookup_lt_is_Some_2 (ins s) k) as [n Hn].
      { pose proof (lookup_lt_Some _ _ _ Hd). lia. }
      rewrite (R1 _ _ _ Hn Hd). by apply (val_input _ _ _ V).
    - rewrite VAST_out. symmetry. by apply v_map_pointwise.
  Qed.
End verilog.

(* the written text, for all networks *)
Theorem write_verilog_spec s ps ids ods : network s -> is_combinational s = true -> 0 < npi s -> 0 < npo s ->
  (forall n, in_use s n -> is_gate s n -> is_dead s n = Some false) ->
  Forall2 ident_text (v_ins s ps) ids -> Forall2 ident_text (v_outs s ps) ods -> length ids = npi s -> length ods = npo s ->
  NoDup (ids ++ ods) -> (forall n, gate_name n ∉ ids ++ ods) ->
  exists t m, write_verilog s ps = Some t /\ read_module t = Some m /\ legal m /\ d_in m = ids /\ d_out m = ods /\
    forall env l, mod_computes m env l <-> computes s env l.
Proof.
  intros W Hcb Hpi Hpo Hlive Hids Hods Hil Hol Hnd Hng. unfold is_combinational in Hcb. apply bool_decide_eq_true in Hcb as [Hni Hno].
  destruct (gates_live s W) as (gs & Egs & Gnd & Gs). destruct (aig_topo_spec s W) as (tl & Etl & Hto & Hlt).
  destruct (verilog_text_reads s ps W Hni Hno ids ods Hids Hods Hil Hol Hnd Hng Hpi Hpo Hlive gs Egs Gnd Gs tl Etl Hto Hlt) as (t & Et & Em).
  exists t, (WriteVerilogProofs.VAST s ps ids ods gs tl). split; [done|]. split; [done|]. split; [by eapply VAST_legal|]. split; [by eapply VAST_in|]. split; [by eapply VAST_out|].
  intros env l. split; [by eapply VAST_sound|by eapply VAST_complete].
Qed.
