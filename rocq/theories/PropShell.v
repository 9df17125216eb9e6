(* C44: the network history of the command shell. *)
From Verif Require Import Base Aig AigSem Aiger Demo Subst SubstProofs PropSubst RefDeref Rewrite PropRewrite Shell.

Record sinv (st : shell) : Prop := {
  si_store : slots st = [] \/ (length (slots st) = 6 /\ cur st = 5 /\ Forall (fun p => p < length (heap st)) (slots st));
  si_hn : hn st <= 6
}.
Lemma put_slot_some k p st st' : put_slot k p st = Some st' -> k < length (slots st) /\ st' = set_store st (heap st) (<[k := p]> (slots st)).
Proof. unfold put_slot. case_decide; [|done]. by intros [= <-]. Qed.

(* the history command, from any values of its options *)
Lemma history_spec st : sinv st -> slots st <> [] -> exists st' o p, exec_history st = Some (st', o) /\ slots st !! cur st = Some p /\
  sinv st' /\ heap st' = heap st /\ cur st' = cur st /\ length (slots st') = length (slots st) /\ ftype st' = ftype st /\
  slots st' !! cur st = Some p /\
  (forall k, k < 5 -> slots st' !! k =
     if decide ((fadd st = true /\ hn st = k) \/
       ((if fadd st then hn st + 1 else hn st) <= 5 /\ frep st = Z.of_nat k /\ k < if fadd st then hn st + 1 else hn st)) then Some p else slots st !! k) /\
  ((if fadd st then hn st + 1 else hn st) <= 5 ->
    hn st' = (if fclear st then 0 else if fadd st then hn st + 1 else hn st) /\
    fclear st' = false /\ fsize st' = false /\ fadd st' = false /\ frep st' = (-1)%Z /\
    o = (if fsize st then Some (hn st') else None)) /\
  (5 < (if fadd st then hn st + 1 else hn st) -> hn st' = 6 /\ o = None /\
    fclear st' = fclear st /\ fsize st' = fsize st /\ fadd st' = fadd st /\ frep st' = frep st).
Proof.
  intros [[?|(Hlen & Hcur & Hp)] Hn] Hne; [done|]. unfold exec_history.
  destruct (slots st) as [|x l] eqn:E; [done|]. rewrite <- E in *. clear E x l Hne.
  destruct (lookup_lt_is_Some_2 (slots st) (cur st)) as [p Ep]; [lia|]. rewrite Ep. cbn [mbind option_bind].
  assert (Hlt : p < length (heap st)) by (rewrite Forall_forall in Hp; by apply Hp; eapply elem_of_list_lookup_2).
  assert (Hadd : exists st1, (if fadd st && bool_decide (hn st <= 5)
             then st' ← put_slot (hn st) p st;
                  Some (Shell (heap st') (slots st') (cur st') (hn st + 1) (fclear st') (fsize st') (fadd st') (frep st') (ftype st'))
             else Some st) = Some st1 /\ heap st1 = heap st /\ cur st1 = 5 /\ length (slots st1) = 6 /\
     fclear st1 = fclear st /\ fsize st1 = fsize st /\ fadd st1 = fadd st /\ frep st1 = frep st /\ ftype st1 = ftype st /\
     hn st1 = (if fadd st then Nat.min 6 (hn st + 1) else hn st) /\
     slots st1 = if fadd st && bool_decide (hn st <= 5) then <[hn st := p]> (slots st) else slots st).
  { destruct (fadd st) eqn:Ef; cbn [andb]; [|exists st; repeat (split; [done|]); done].
    destruct (decide (hn st <= 5)) as [Hh|Hh].
    - rewrite bool_decide_eq_true_2 by done. unfold put_slot. rewrite decide_True by lia. cbn [mbind option_bind]. eexists. split; [done|]. cbn [heap slots cur hn fclear fsize fadd frep ftype set_store].
      rewrite insert_length. repeat (split; [done|]). split; [lia|done].
    - rewrite bool_decide_eq_false_2 by done. exists st. repeat (split; [done|]). split; [lia|done]. }
  destruct Hadd as (st1 & -> & H1 & H2 & H3 & H4 & H5 & H6 & H7 & H8 & H9 & H10). cbn [mbind option_bind].
  assert (Hc1 : slots st1 !! 5 = Some p).
  { assert (Ep5 : slots st !! 5 = Some p) by (by rewrite <- Hcur).
    rewrite H10. destruct (fadd st && _) eqn:Q; [|exact Ep5]. destruct (decide (hn st = 5)) as [Q2|Q2].
    - rewrite Q2. apply list_lookup_insert. lia.
    - by rewrite list_lookup_insert_ne. }
  assert (Hp1 : Forall (fun p => p < length (heap st1)) (slots st1)).
  { rewrite H1, H10. destruct (fadd st && _); [|done]. apply Forall_insert; done. }
  assert (Hk1 : forall k, k < 5 -> slots st1 !! k = if decide (fadd st = true /\ hn st = k) then Some p else slots st !! k).
  { intros k Hk. rewrite H10. destruct (fadd st) eqn:Ef; cbn [andb]; [|case_decide; naive_solver].
    destruct (decide (hn st <= 5)) as [Hh|Hh].
    - rewrite bool_decide_eq_true_2 by done. destruct (decide (hn st = k)) as [Q|Q].
      + rewrite decide_True by done. rewrite Q. apply list_lookup_insert. lia.
      + rewrite decide_False by naive_solver. by rewrite list_lookup_insert_ne.
    - rewrite bool_decide_eq_false_2 by done. rewrite decide_False by lia. done. }
  assert (Hh1 : hn st1 <= 6) by (rewrite H9; destruct (fadd st); lia).
  assert (Hh2 : hn st1 <= 5 <-> (if fadd st then hn st + 1 else hn st) <= 5) by (rewrite H9; destruct (fadd st); lia).
  assert (Hh3 : hn st1 <= 5 -> hn st1 = if fadd st then hn st + 1 else hn st) by (rewrite H9; destruct (fadd st); lia).
  clear H9. destruct (decide (5 < hn st1)) as [Q|Q].
  { exists st1, None, p. split; [done|]. split; [done|]. split; [split; [right; rewrite H2; auto|done]|]. split; [done|].
    split; [congruence|]. split; [congruence|]. split; [done|]. split; [by rewrite Hcur|]. split.
    - intros k Hk. rewrite Hk1 by done. repeat case_decide; try done; naive_solver lia.
    - split; [intros ?; lia|]. intros _. split; [lia|]. done. }
  rewrite H2, Hc1. cbn [mbind option_bind].
  assert (Hrep : exists st2, (if decide (frep st1 = -1)%Z then Some st1
               else if decide (Z.of_nat (hn st1) - 1 < frep st1 \/ frep st1 < -1)%Z then Some st1
               else put_slot (Z.to_nat (frep st1)) p st1) = Some st2 /\ heap st2 = heap st /\ cur st2 = 5 /\ length (slots st2) = 6 /\
     fclear st2 = fclear st /\ fsize st2 = fsize st /\ ftype st2 = ftype st /\ hn st2 = hn st1 /\
     Forall (fun p => p < length (heap st2)) (slots st2) /\ slots st2 !! 5 = Some p /\
     forall k, k < 5 -> slots st2 !! k = if decide (frep st = Z.of_nat k /\ k < hn st1) then Some p else slots st1 !! k).
  { destruct (decide (frep st1 = -1)%Z) as [R1|R1]; [exists st1; repeat (split; [done|]); intros k Hk; rewrite decide_False by lia; done|].
    destruct (decide (Z.of_nat (hn st1) - 1 < frep st1 \/ frep st1 < -1)%Z) as [R2|R2]; [exists st1; repeat (split; [done|]); intros k Hk; rewrite decide_False by lia; done|].
    unfold put_slot. rewrite decide_True by lia. eexists. split; [done|]. cbn. rewrite insert_length. repeat (split; [done|]).
    split; [apply Forall_insert; [done|by rewrite H1]|]. split; [rewrite list_lookup_insert_ne; [done|lia]|].
    intros k Hk. destruct (decide (frep st = Z.of_nat k /\ k < hn st1)) as [R3|R3].
    - destruct R3 as [R3 R4]. rewrite H7, R3, Nat2Z.id. apply list_lookup_insert. lia.
    - rewrite list_lookup_insert_ne; [done|]. intros R4. apply R3. rewrite <- R4. rewrite H7 in *. lia. }
  destruct Hrep as (st2 & -> & J1 & J2 & J3 & J4 & J5 & J6 & J7 & J8 & J9 & J10). cbn [mbind option_bind].
  do 2 eexists. exists p. split; [done|]. cbn. split; [done|]. split.
  { split; cbn; [right; auto|]. destruct (fclear st2); lia. }
  split; [done|]. split; [congruence|]. split; [congruence|]. split; [done|]. split; [by rewrite Hcur|]. split.
  - intros k Hk. rewrite J10, Hk1 by done. rewrite <- Hh3 by lia. repeat case_decide; try done; naive_solver lia.
  - split; [|intros ?; lia]. intros _. rewrite J4, J5, J7, Hh3 by lia. destruct (fclear st); done.
Qed.

Lemma exec_inv c st st' o : sinv st -> exec c st = Some (st', o) -> sinv st'.
Proof.
  intros I H. destruct c as [nb g|f|f|c s a r|t]; cbn [exec] in H.
  - assert (st' = exec_read nb g st) as -> by congruence. clear H. unfold exec_read. split; cbn [slots cur heap hn]; [|apply I].
    right. split; [by rewrite seq_length|]. split; [done|]. apply Forall_forall. intros p [_ Hp]%elem_of_seq. rewrite !app_length, repeat_length. cbn. lia.
  - destruct (slots st) as [|x l] eqn:E; [by injection H as <- <-|]. rewrite <- E in *.
    destruct (at_cur st) as [g|]; [|done]. cbn [mbind option_bind] in H. destruct (f g) as [d|]; [|done]. cbn [mbind option_bind] in H.
    destruct (put_slot _ _ _) as [st1|] eqn:Ep; [|done]. injection H as <- <-. apply put_slot_some in Ep as [Hlt ->].
    destruct I as [[?|(H1 & H2 & H3)] Hh]; [congruence|]. split; [|done]. right. cbn [slots cur heap set_store]. rewrite insert_length.
    split; [done|]. split; [done|]. rewrite app_length. cbn. apply Forall_insert; [|lia]. eapply Forall_impl; [exact H3|]. cbn. lia.
  - destruct (slots st) as [|x l] eqn:E; [by injection H as <- <-|]. rewrite <- E in *.
    destruct (slots st !! cur st) as [p|]; [|done]. cbn [mbind option_bind] in H. destruct (heap st !! p) as [g|]; [|done].
    cbn [mbind option_bind] in H. destruct (f g) as [[e d]|]; [|done]. cbn [mbind option_bind] in H.
    destruct (put_slot _ _ _) as [st1|] eqn:Ep; [|done]. injection H as <- <-. apply put_slot_some in Ep as [Hlt ->].
    destruct I as [[?|(H1 & H2 & H3)] Hh]; [congruence|]. split; [|done]. right. cbn [slots cur heap set_store]. rewrite insert_length.
    split; [done|]. split; [done|]. rewrite app_length, insert_length. cbn. apply Forall_insert; [|lia]. eapply Forall_impl; [exact H3|]. cbn. lia.
  - set (st0 := Shell _ _ _ _ _ _ _ _ _) in H. assert (I0 : sinv st0) by (split; apply I).
    destruct (slots st) as [|x l] eqn:E.
    + unfold exec_history in H. assert (slots st0 = []) as E0 by (exact E || (cbn; done)). rewrite E0 in H. by injection H as <- <-.
    + destruct (history_spec st0 I0) as (st2 & o2 & p & E2 & _ & I2 & _); [cbn; congruence|]. rewrite E2 in H. by injection H as <- <-.
  - set (st0 := Shell _ _ _ _ _ _ _ _ _) in H. assert (I0 : sinv st0) by (split; apply I).
    destruct (slots st) as [|x l]; [by injection H as <- <-|]. case_decide; [by injection H as <- <-|]. case_decide.
    + destruct (choice_inputs st0); [|done]. by injection H as <- <-.
    + destruct (at_cur st0); [|done]. by injection H as <- <-.
Qed.
Lemma shell_state_inv st : shell_state st -> sinv st.
Proof. induction 1 as [|st c st' o _ IH E]; [split; cbn; [by left|lia]|]. by eapply exec_inv. Qed.

(* The store holds no network before the first read_aiger and six afterwards, and
   the current one is the sixth; the history index is at most 5. *)
Theorem C44_store st : shell_state st ->
  (slots st = [] \/ (length (slots st) = 6 /\ cur st = 5 /\ forall k, k < 6 -> is_Some (at_slot st k))) /\ hn st <= 6.
Proof.
  intros [[?|(H1 & H2 & H3)] Hh]%shell_state_inv; split; auto. right. split; [done|]. split; [done|]. intros k Hk. unfold at_slot.
  destruct (lookup_lt_is_Some_2 (slots st) k) as [p Ep]; [lia|]. rewrite Ep. cbn. apply lookup_lt_is_Some_2.
  rewrite Forall_forall in H3. by apply H3; eapply elem_of_list_lookup_2.
Qed.
Print Assumptions C44_store.

(* options as after a history command that did not stop early *)
Definition no_options (st : shell) : Prop := fclear st = false /\ fsize st = false /\ fadd st = false /\ frep st = (-1)%Z.

(* history --add with fewer than five saved networks: the next slot denotes the
   current network, the other slots are as before. *)
Theorem C44_add st : shell_state st -> slots st <> [] -> no_options st -> hn st < 5 ->
  exists st' g, exec (History false false true None) st = Some (st', Nothing) /\ no_options st' /\ hn st' = hn st + 1 /\
    at_cur st = Some g /\ at_cur st' = Some g /\ at_slot st' (hn st) = Some g /\
    forall k, k <> hn st -> at_slot st' k = at_slot st k.
Proof.
  intros Hs Hne (F1 & F2 & F3 & F4) Hh. pose proof (shell_state_inv st Hs) as I. destruct (C44_store st Hs) as [[?|(L6 & C5 & At)] _]; [done|].
  cbn [exec]. set (st0 := Shell _ _ _ _ _ _ _ _ _). assert (I0 : sinv st0) by (split; apply I).
  destruct (history_spec st0 I0) as (st' & o & p & -> & Ep & I' & Eh & Ec & El & _ & Ecp & Ek & H1 & _); [done|].
  assert (Ef : fadd st0 = true) by (cbn; by rewrite F3). rewrite Ef in *. cbn [hn st0] in Ep, H1, Ek.
  destruct H1 as (G1 & G2 & G3 & G4 & G5 & G6); [lia|]. cbn [fclear fsize st0] in G1, G6. rewrite F1 in G1. rewrite F2 in G6. cbn [orb] in G1, G6. subst o.
  destruct (At (cur st)) as [g Eg]; [lia|]. cbn [cur slots heap st0] in *. exists st', g. split; [done|]. split; [done|]. split; [done|].
  split; [done|]. unfold at_cur, at_slot in *. rewrite Ep in Eg. cbn in Eg. rewrite Ec, Ecp, Eh. split; [done|].
  split.
  - rewrite Ek, decide_True by tauto. done.
  - intros k Hk. destruct (decide (k < 5)) as [Hk5|Hk5].
    + rewrite Ek by done. rewrite decide_False; [done|]. intros [[_ ?]|(_ & Hr & _)]; [congruence|]. cbn [frep st0] in Hr. lia.
    + destruct (decide (k = 5)) as [->|Hk6]; [rewrite <- C5, Ecp, Ep; done|]. rewrite !lookup_ge_None_2 by lia. done.
Qed.
Print Assumptions C44_add.

Lemma exec_keep k c st st' o p : sinv st -> k < 5 -> ~ writes k st c -> exec c st = Some (st', o) -> slots st !! k = Some p ->
  slots st' !! k = Some p /\
  ((idle c /\ heap st' = heap st /\ slots st' !! 5 = slots st !! 5) \/
   (slots st' !! 5 = Some (length (heap st)) /\
    forall q, slots st !! 5 = Some q -> forall x g, heap st !! x = Some g ->
      (x <> q -> heap st' !! x = Some g) /\
      (heap st' !! q = heap st !! q \/ exists f h e d, c = Inplace f /\ heap st !! q = Some h /\ f h = Some (e, d) /\ heap st' !! q = Some e))).
Proof.
  intros I Hk Hw H Ek. destruct (slots st) as [|x0 l0] eqn:E; [by rewrite lookup_nil in Ek|].
  assert (Hne : slots st <> []) by congruence. rewrite <- E in *.
  destruct (si_store _ I) as [?|(L6 & C5 & Hp)]; [done|].
  destruct c as [nb g|f|f|c s a r|t]; cbn [exec] in H.
  - by destruct Hw.
  - rewrite E in H. rewrite <- E in H.
    destruct (at_cur st) as [g|] eqn:Eg; [|done]. cbn [mbind option_bind] in H. destruct (f g) as [d|]; [|done]. cbn [mbind option_bind] in H.
    destruct (put_slot _ _ _) as [st1|] eqn:Ep; [|done]. injection H as <- <-. apply put_slot_some in Ep as [Hlt ->].
    cbn [slots set_store heap]. rewrite C5. split; [by rewrite list_lookup_insert_ne by lia|]. right.
    split; [apply list_lookup_insert; lia|]. intros q Eq x g' Ex. split; [intros _|].
    + rewrite lookup_app_l; [done|]. by apply lookup_lt_Some in Ex.
    + left. rewrite lookup_app_l; [done|]. rewrite Forall_forall in Hp. by apply Hp; eapply elem_of_list_lookup_2.
  - rewrite E in H. rewrite <- E in H.
    destruct (slots st !! cur st) as [q0|] eqn:Eq0; [|done]. cbn [mbind option_bind] in H. destruct (heap st !! q0) as [h|] eqn:Eh; [|done].
    cbn [mbind option_bind] in H. destruct (f h) as [[e d]|] eqn:Ef; [|done]. cbn [mbind option_bind] in H.
    destruct (put_slot _ _ _) as [st1|] eqn:Ep; [|done]. injection H as <- <-. apply put_slot_some in Ep as [Hlt ->].
    cbn [slots set_store heap]. rewrite C5 in *. split; [by rewrite list_lookup_insert_ne by lia|]. right.
    split; [apply list_lookup_insert; lia|]. intros q Eq x g' Ex. rewrite Eq0 in Eq. injection Eq as <-. split; [intros Hx|].
    + rewrite lookup_app_l by (rewrite insert_length; by apply lookup_lt_Some in Ex). by rewrite list_lookup_insert_ne.
    + right. exists f, h, e, d. split; [done|]. split; [done|]. split; [done|].
      rewrite lookup_app_l by (rewrite insert_length; by apply lookup_lt_Some in Eh). apply list_lookup_insert. by apply lookup_lt_Some in Eh.
  - set (st0 := Shell _ _ _ _ _ _ _ _ _) in H. assert (I0 : sinv st0) by (split; apply I).
    destruct (history_spec st0 I0) as (st2 & o2 & p' & E2 & Ep & _ & Eh & Ec & _ & _ & Ecp & Hks & _); [done|].
    rewrite E2 in H. injection H as <- <-. split; [|left; split; [done|]; split; [done|]].
    + rewrite Hks by done. rewrite decide_False; [done|]. intros Hd. apply Hw. cbn [writes]. destruct Hd as [[Hd1 Hd2]|(_ & Hd & _)]; [by left|by right].
    + change (cur st0) with (cur st) in *. change (slots st0) with (slots st) in *. rewrite <- C5, Ecp, Ep. done.
  - rewrite E in H. rewrite <- E in H. set (st0 := Shell _ _ _ _ _ _ _ _ _) in H.
    assert (st' = st0) as -> by (repeat case_decide; [congruence|destruct (choice_inputs st0); cbn [mbind option_bind] in H; congruence|destruct (at_cur st0); cbn [mbind option_bind] in H; congruence]).
    split; [done|]. left. done.
Qed.

(* A saved network whose storage is not that of the current network stays what it
   is until its slot is written again. *)
Theorem C44_snapshot k st cs st' g : shell_state st -> k < 5 -> at_slot st k = Some g -> slots st !! k <> slots st !! 5 ->
  keeping k st cs st' -> at_slot st' k = Some g.
Proof.
  intros Hs Hk Hg Hne Hr. apply shell_state_inv in Hs. revert Hs Hg Hne.
  induction Hr as [st|st c st1 o cs st' Hw E Hr IH]; intros I Hg Hne; [done|].
  unfold at_slot in Hg. destruct (slots st !! k) as [p|] eqn:Ep; [|done]. cbn in Hg.
  destruct (exec_keep k c st st1 o p I Hk Hw E Ep) as (Ek & Hcase). apply IH; [by eapply exec_inv|..].
  - unfold at_slot. rewrite Ek. cbn. destruct Hcase as [(_ & -> & _)|(_ & Hc)]; [done|].
    destruct (si_store _ I) as [E0|(L6 & C5 & Hp)]; [by rewrite E0 in Ep|].
    destruct (lookup_lt_is_Some_2 (slots st) 5) as [q Eq]; [lia|]. destruct (Hc q Eq p g Hg) as [H1 _]. apply H1. congruence.
  - rewrite Ek. destruct Hcase as [(_ & _ & ->)|(-> & _)]; [done|]. intros [= ->]. apply lookup_lt_Some in Hg. lia.
Qed.
Print Assumptions C44_snapshot.

(* A saved network that shares its storage with the current one (right after --add)
   stays what it is, except that the first rewrite or refactor that follows edits
   it in place. *)
Theorem C44_shared k st cs st' g : shell_state st -> k < 5 -> at_slot st k = Some g -> slots st !! k = slots st !! 5 ->
  keeping k st cs st' ->
  at_slot st' k = Some g \/
  exists pre f post e d, cs = pre ++ Inplace f :: post /\ Forall idle pre /\ f g = Some (e, d) /\ at_slot st' k = Some e.
Proof.
  intros Hs Hk Hg Heq Hr. revert Hs Hg Heq.
  induction Hr as [st|st c st1 o cs st' Hw E Hr IH]; intros Hs Hg Heq; [by left|].
  pose proof (shell_state_inv st Hs) as I. assert (Hs1 : shell_state st1) by (by eapply sh_step).
  unfold at_slot in Hg. destruct (slots st !! k) as [p|] eqn:Ep; [|done]. cbn in Hg.
  destruct (exec_keep k c st st1 o p I Hk Hw E Ep) as (Ek & Hcase).
  destruct Hcase as [(Hi & Hh & H5)|(H5 & Hc)].
  - destruct IH as [IH|(pre & f & post & e & d & -> & Hpre & Hf & Ha)]; [done|unfold at_slot; by rewrite Ek, Hh|by rewrite Ek, H5|by left|].
    right. exists (c :: pre), f, post, e, d. split; [done|]. split; [by constructor|]. done.
  - symmetry in Heq. destruct (Hc p Heq p g Hg) as [_ [H|(f & h & e & d & -> & Eh & Hf & He)]].
    + left. apply (C44_snapshot k st1 cs st' g); [done|done| | |done].
      * unfold at_slot. rewrite Ek. cbn. congruence.
      * rewrite Ek, H5. intros [= ->]. apply lookup_lt_Some in Hg. lia.
    + right. rewrite Hg in Eh. injection Eh as <-. exists [], f, cs, e, d. split; [done|]. split; [constructor|]. split; [done|].
      apply (C44_snapshot k st1 cs st' e); [done|done| | |done].
      * unfold at_slot. rewrite Ek. done.
      * rewrite Ek, H5. intros [= ->]. apply lookup_lt_Some in Hg. lia.
Qed.
Print Assumptions C44_shared.

(* map_fpga --type 1 gives the choice miter the networks of slots 4 to 0 that have
   gates, in this order (not the current network). *)
Theorem C44_choice st : shell_state st -> slots st <> [] ->
  exists st' gs g4 g3 g2 g1 g0, exec (Map (Some 1%Z)) st = Some (st', Mapped gs) /\
    at_slot st 4 = Some g4 /\ at_slot st 3 = Some g3 /\ at_slot st 2 = Some g2 /\ at_slot st 1 = Some g1 /\ at_slot st 0 = Some g0 /\
    gs = filter (fun g => (0 < num_gates g)%N) [g4; g3; g2; g1; g0] /\ forall k, at_slot st' k = at_slot st k.
Proof.
  intros Hs Hne. destruct (C44_store st Hs) as [[?|(L6 & C5 & At)] _]; [done|].
  destruct (At 4) as [g4 E4]; [lia|]. destruct (At 3) as [g3 E3]; [lia|]. destruct (At 2) as [g2 E2]; [lia|].
  destruct (At 1) as [g1 E1]; [lia|]. destruct (At 0) as [g0 E0]; [lia|]. cbn [exec].
  set (st0 := Shell _ _ _ _ _ _ _ _ _). assert (Hsl : length (slots st0) = 6) by exact L6.
  assert (Hat : forall k, at_slot st0 k = at_slot st k) by done.
  assert (Ht : ftype st0 = 1%Z) by done. clearbody st0. destruct (slots st) as [|x0 l0] eqn:E; [done|].
  rewrite Ht. rewrite decide_False by lia. rewrite decide_True by done. unfold choice_inputs. rewrite Hsl. cbn [Nat.sub seq rev app].
  cbn [networks_at]. rewrite !Hat, E4, E3, E2, E1, E0. cbn [mbind option_bind].
  exists st0. do 6 eexists. split; [done|]. do 5 (split; [done|]). split; [|done]. rewrite !filter_cons, filter_nil. done.
Qed.
Print Assumptions C44_choice.

(* ---- what does not hold ---- *)
Fixpoint run (cs : list cmd) (st : shell) : option (shell * list Shell.shown) :=
  match cs with
  | [] => Some (st, [])
  | c :: r => '(st1, o) ← exec c st; '(st2, os) ← run r st1; Some (st2, o :: os)
  end.
Lemma run_state cs st st' os : shell_state st -> run cs st = Some (st', os) -> shell_state st'.
Proof.
  revert st os. induction cs as [|c r IH]; intros st os Hs H; cbn in H; [by injection H as <- <-|].
  destruct (exec c st) as [[st1 o]|] eqn:E; [|done]. cbn in H. destruct (run r st1) as [[st2 os']|] eqn:E2; [|done]. injection H as <- <-.
  eapply IH; [|exact E2]. by eapply sh_step.
Qed.
Definition add := History false false true None.

(* The sixth --add overwrites nothing, but afterwards no history command does
   anything: not even --clear makes room. *)
Theorem C44_full st c s a r : shell_state st -> hn st = 6 ->
  exists st', exec (History c s a r) st = Some (st', Nothing) /\ hn st' = 6 /\ slots st' = slots st /\ heap st' = heap st.
Proof.
  intros Hs H6. pose proof (shell_state_inv st Hs) as I. cbn [exec]. set (st0 := Shell _ _ _ _ _ _ _ _ _).
  assert (I0 : sinv st0) by (split; apply I). unfold exec_history. change (slots st0) with (slots st). change (cur st0) with (cur st). change (hn st0) with (hn st).
  destruct (slots st) as [|x l] eqn:E; [by eexists|]. rewrite <- E.
  destruct (si_store _ I) as [?|(L6 & C5 & _)]; [congruence|].
  destruct (lookup_lt_is_Some_2 (slots st) (cur st)) as [p ->]; [lia|]. cbn [mbind option_bind].
  rewrite bool_decide_eq_false_2 by lia. rewrite andb_false_r. cbn [mbind option_bind]. change (hn st0) with (hn st). rewrite decide_True by lia.
  cbn [mbind option_bind]. eexists. split; [done|]. done.
Qed.
Print Assumptions C44_full.
Definition hist_net : aig := build [OpPi; OpPi; OpAnd (a_ 1) (a_ 2); OpPo (a_ 3)].
Theorem C44_full_refuted : exists st os, run [Read 1 hist_net; add; add; add; add; add; add] shell_init = Some (st, os) /\ hn st = 6.
Proof. do 2 eexists. split; vm_compute; reflexivity. Qed.
Print Assumptions C44_full_refuted.

(* A saved network is not what was saved once rewriting has edited the storage it
   shares with the current network (here: gate 6 replaced by gate 4). *)
Definition rewrite_6_by_4 (s : aig) : option (aig * aig) :=
  '(_, (s', _)) ← replace_all (recorded_fanouts s) [(6, a_ 4)] (s, zero_v);
  d ← Clean.cleanup_dangling 1 s' false false; Some (s', d).
Theorem C44_edited_refuted : exists st st' os os' e,
  run [Read 1 rw_demo; add] shell_init = Some (st, os) /\ at_slot st 0 = Some rw_demo /\
  run [Inplace rewrite_6_by_4] st = Some (st', os') /\ at_slot st' 0 = Some e /\ ks e !! 7 <> ks rw_demo !! 7.
Proof.
  destruct (run [Read 1 rw_demo; add; Inplace rewrite_6_by_4] shell_init) as [[st' os]|] eqn:E; [|vm_compute in E; discriminate E].
  destruct (run [Read 1 rw_demo; add] shell_init) as [[st1 os1]|] eqn:E1; [|vm_compute in E1; discriminate E1].
  assert (E2 : (x ← run [Read 1 rw_demo; add] shell_init; x' ← run [Inplace rewrite_6_by_4] x.1; Some (at_slot x.1 0, at_slot x'.1 0, x'.2)) =
    (x ← run [Read 1 rw_demo; add; Inplace rewrite_6_by_4] shell_init; Some (Some rw_demo, at_slot x.1 0, [Nothing]))) by (vm_compute; reflexivity).
  rewrite E, E1 in E2. cbn [mbind option_bind fst snd] in E2.
  destruct (run [Inplace rewrite_6_by_4] st1) as [[st2 os2]|] eqn:E3; [|discriminate E2]. cbn [mbind option_bind fst snd] in E2. injection E2 as H1 H2 H3.
  assert (E4 : (x ← run [Read 1 rw_demo; add; Inplace rewrite_6_by_4] shell_init; e ← at_slot x.1 0; Some (ks e !! 7)) = Some (Some (a_ 3, n_ 4))) by (vm_compute; reflexivity).
  rewrite E in E4. cbn [mbind option_bind fst] in E4. destruct (at_slot st' 0) as [e|] eqn:Ea; [|discriminate E4]. cbn [mbind option_bind] in E4. injection E4 as E4.
  exists st1, st2, os1, os2, e. split; [reflexivity|]. split; [exact H1|]. split; [exact E3|]. split; [exact H2|].
  rewrite E4. assert (ks rw_demo !! 7 = Some (a_ 3, n_ 6)) as -> by (vm_compute; reflexivity). discriminate.
Qed.
Print Assumptions C44_edited_refuted.

(* --clear keeps the networks where choice mapping finds them; reading another file
   keeps the count; and an option of a call that ended with a warning takes effect
   in the next call. *)
Theorem C44_clear_refuted : exists st os,
  run [Read 1 hist_net; add; History true false false None; History false true false None; Map (Some 1%Z)] shell_init = Some (st, os) /\
  os = [Nothing; Nothing; Nothing; Size 0; Mapped [hist_net]].
Proof. do 2 eexists. split; vm_compute; reflexivity. Qed.
Print Assumptions C44_clear_refuted.
Theorem C44_read_refuted : exists st os,
  run [Read 1 hist_net; add; Read 1 hist_net; History false true false None; Map (Some 1%Z)] shell_init = Some (st, os) /\
  os = [Nothing; Nothing; Nothing; Size 1; Mapped []].
Proof. do 2 eexists. split; vm_compute; reflexivity. Qed.
Print Assumptions C44_read_refuted.
Theorem C44_sticky_refuted : exists st os,
  run [add; Read 1 hist_net; History false true false None; Map (Some 1%Z); Map None] shell_init = Some (st, os) /\
  os = [Nothing; Nothing; Size 1; Mapped [hist_net]; Mapped [hist_net]] /\ hn st = 1.
Proof. do 2 eexists. split; [vm_compute; reflexivity|]. split; vm_compute; reflexivity. Qed.
Print Assumptions C44_sticky_refuted.

(* Nonvacuity: two different networks saved and mapped together. *)
Definition hist_net2 : aig := build [OpPi; OpPi; OpAnd (a_ 1) (n_ 2); OpPo (a_ 3)].
Example C44_nonvacuous : exists st os,
  run [Read 1 hist_net; add; Fresh (fun _ => Some hist_net2); add; Map (Some 1%Z); Map (Some 0%Z)] shell_init = Some (st, os) /\
  os = [Nothing; Nothing; Nothing; Nothing; Mapped [hist_net2; hist_net]; Mapped [hist_net2]].
Proof. do 2 eexists. split; vm_compute; reflexivity. Qed.
