(* C37, C38: multiplexer recognition and choice links. *)
From Verif Require Import Base Aig AigSem AigProofs AigApi Demo Choice ChoiceProofs.

(* ---- C37: multiplexers ---- *)
(* is_mux never leaves the node table of a network built by the creation calls *)
Theorem C37_mux_defined s n : reachable s -> n < size s -> is_Some (is_mux s n).
Proof.
  intros Hr Hn.
  assert (Ha : forall m, m < size s -> is_Some (is_and s m)).
  { intros m Hm. unfold is_and, is_ci. destruct (lookup_lt_is_Some_2 (ks s) m Hm) as [k ->]. done. }
  unfold is_mux. destruct (Ha n Hn) as [b Eb]. rewrite Eb. cbn [mbind option_bind]. destruct b; [|done]. cbn [negb].
  apply is_and_gate in Eb as [Eb _]. destruct (Eb eq_refl) as (x & y & E & Hn0 & Hxy). rewrite E. cbn [mbind option_bind fst snd].
  destruct (topological s n x y Hr E Hxy) as [H1 H2].
  destruct (negb (scompl x) || negb (scompl y)); [done|].
  destruct (Ha (sidx x)) as [b0 ->]; [lia|]. cbn [mbind option_bind]. destruct b0; [|done]. cbn [negb].
  destruct (Ha (sidx y)) as [b1 ->]; [lia|]. cbn [mbind option_bind]. destruct b1; [|done]. cbn [negb].
  destruct (lookup_lt_is_Some_2 (ks s) (sidx x)) as [k0 ->]; [unfold size in *; lia|].
  destruct (lookup_lt_is_Some_2 (ks s) (sidx y)) as [k1 ->]; [unfold size in *; lia|]. done.
Qed.
Print Assumptions C37_mux_defined.

(* If the test succeeds, the recognised operands describe the node under every
   input assignment, in every network. *)
Theorem C37_mux_sound s n : is_mux s n = Some true ->
  exists i t e, recognize_mux s n = Some (i, t, e) /\ scompl i = false /\
    forall env v, valuation s env v -> v n = if sval v i then sval v t else sval v e.
Proof.
  intros H. destruct (recognize_mux_total s n H) as (i & t & e & ? & ? & ? & _). by exists i, t, e.
Qed.
Print Assumptions C37_mux_sound.

(* inputs 1 2 3; 6 = ite(1, 2, !3); 8 = 1 xor 2 *)
Definition mux_demo : aig := build [OpPi; OpPi; OpPi; OpIte (Sig 1 false) (Sig 2 false) (Sig 3 true);
  OpXor (Sig 1 false) (Sig 2 false); OpAnd (Sig 1 false) (Sig 8 false)].
Example C37_nonvacuous : reachable mux_demo /\ is_mux mux_demo 6 = Some true /\ is_mux mux_demo 8 = Some true /\
  is_mux mux_demo 9 = Some false /\ recognize_mux mux_demo 8 = Some (Sig 2 false, Sig 1 false, Sig 1 true).
Proof. split; [apply build_reachable; vm_compute; reflexivity|]. vm_compute. done. Qed.

(* ---- C38: choice links ---- *)
(* After any history of creation calls and set_choice calls the graph of fanins
   and choice links has no cycle. *)
Theorem C38_acyclic c : chist c -> acyclic (cedge c).
Proof. intros H. apply (ci_acyclic c), chist_cinv, H. Qed.
Print Assumptions C38_acyclic.

(* Representatives precede the nodes linked to them. *)
Theorem C38_representative c n m : chist c -> link c n m -> exists r, get_repr c m = Some r /\ r < m.
Proof. intros H. apply (ci_head c), chist_cinv, H. Qed.
Print Assumptions C38_representative.

(* Exact answer: an AND node that has no successor in a class is linked to the
   class of r exactly if r precedes it and no AND node of that class, from r on,
   is below it in the combined graph.  It then becomes the last member, and r
   its representative; otherwise nothing changes. *)
Theorem C38_set_choice_exact c n r : chist c -> size (cb c) <= length (equivs c) ->
  n < size (cb c) -> is_gate (cb c) n -> equivs c !! n = Some None ->
  exists b c', set_choice n r c = Some (b, c') /\ cb c' = cb c /\
    (b = true <-> r < n /\ forall m, is_gate (cb c) m -> rtc (link c) r m -> ~ rtc (cedge c) n m) /\
    (b = false -> equivs c' = equivs c /\ reprs c' = reprs c) /\
    (b = true -> get_repr c' n = Some r /\
       exists t, rtc (link c) r t /\ equivs c !! t = Some None /\
         forall x y, link c' x y <-> link c x y \/ (x = t /\ y = n)).
Proof.
  intros H Hl Hn Hg He. pose proof (chist_cinv c H) as Hi.
  destruct (set_choice_total n r c Hi Hl Hn He (or_introl Hg)) as [[b c'] E]. exists b, c'. split; [done|].
  destruct (set_choice_inv n r c b c' Hi E) as (_ & Hcb & Hb). split; [done|]. destruct b.
  - destruct Hb as (? & ? & ? & Er & Hlr & ? & t & ? & Ht & Eq). split; [split; done|]. split; [done|]. intros _. split.
    + unfold get_repr. rewrite Er. by apply list_lookup_insert.
    + exists t. split; [done|]. split; [done|]. by apply link_insert.
  - destruct Hb as (? & ? & Hno). split; [|done]. split; [done|]. intros [Hr Hm].
    destruct Hno as [?|(m & ? & ? & ?)]; [lia|]. by destruct (Hm m).
Qed.
Print Assumptions C38_set_choice_exact.

(* Every node has at most one predecessor if each node that is linked is new to
   the classes. *)
Theorem C38_one_class c x y n : chist_fresh c -> link c x n -> link c y n -> x = y.
Proof. intros H. by apply chist_fresh_one. Qed.
Print Assumptions C38_one_class.

(* inputs 1 2 3; 4 = 1&2, 5 = 1&3, 6 = 2&3, 7 = 4&3, 8 = 5&2, 9 = 6&1, 10 = 9 & !8 *)
Definition choice_demo : cnet := choice_of_aig (build [OpPi; OpPi; OpPi;
  OpAnd (Sig 1 false) (Sig 2 false); OpAnd (Sig 1 false) (Sig 3 false); OpAnd (Sig 2 false) (Sig 3 false);
  OpAnd (Sig 4 false) (Sig 3 false); OpAnd (Sig 5 false) (Sig 2 false); OpAnd (Sig 6 false) (Sig 1 false);
  OpAnd (Sig 9 false) (Sig 8 true)]).
Definition choices (l : list (nat * nat)) : M cnet (list bool) := mapM (fun x => set_choice x.1 x.2) l.
Lemma choices_chist l : forall c bs c', chist c -> choices l c = Some (bs, c') -> chist c'.
Proof.
  induction l as [|[n r] l IH]; intros c bs c' H E; [by injection E as <- <-|].
  unfold choices in E. cbn [mapM] in E. unfold bnd, ret in E. cbn in E.
  destruct (set_choice n r c) as [[b c1]|] eqn:E1; [|done]. fold (choices l) in E.
  destruct (choices l c1) as [[bs' c2]|] eqn:E2; [|done]. injection E as <- <-.
  eapply IH; [|exact E2]. by econstructor.
Qed.
Lemma choice_demo_hist : chist choice_demo.
Proof. apply ch_init, build_reachable. vm_compute. reflexivity. Qed.

(* 8 and 9 join the class of 7; 10 may not: 8 is below it *)
Example C38_nonvacuous : chist choice_demo /\ size (cb choice_demo) = 11 /\
  match choices [(8, 7); (9, 7); (10, 7)] choice_demo with
  | Some (bs, c) => bs = [true; true; false] /\
      equivs c = [None; None; None; None; None; None; None; Some 8; Some 9; None; None] /\
      reprs c = [0; 1; 2; 3; 4; 5; 6; 7; 7; 7; 10]
  | None => False
  end.
Proof. split; [exact choice_demo_hist|]. vm_compute. done. Qed.

(* A node may be put in two classes: nothing checks that it is in none. *)
Theorem C38_two_classes_refuted : exists c x y n, chist c /\ link c x n /\ link c y n /\ x <> y /\
  choices [(6, 4); (6, 5)] choice_demo = Some ([true; true], c).
Proof.
  destruct (choices [(6, 4); (6, 5)] choice_demo) as [[bs c]|] eqn:E.
  2:{ exfalso. revert E. vm_compute. discriminate. }
  pose proof (choices_chist _ _ _ _ choice_demo_hist E) as H.
  assert (Hbs : option_map fst (choices [(6, 4); (6, 5)] choice_demo) = Some [true; true]) by (vm_compute; reflexivity).
  assert (Heq : option_map (fun x => equivs x.2) (choices [(6, 4); (6, 5)] choice_demo) =
    Some [None; None; None; None; Some 6; Some 6; None; None; None; None; None]) by (vm_compute; reflexivity).
  rewrite E in Hbs, Heq. cbn in Hbs, Heq. injection Hbs as ->. injection Heq as Heq.
  exists c, 4, 5, 6. split; [exact H|]. unfold link. rewrite Heq.
  split; [reflexivity|]. split; [reflexivity|]. split; [discriminate|]. reflexivity.
Qed.
Print Assumptions C38_two_classes_refuted.

(* Inputs are exempt from the check: an AND node may become a choice of an input
   it depends on, so with the links of inputs included there is a cycle. *)
Theorem C38_input_cycle_refuted : exists c n, chist c /\
  choices [(4, 1)] choice_demo = Some ([true], c) /\
  tc (fun x y => fanin (cb c) x y \/ link c x y) n n.
Proof.
  destruct (choices [(4, 1)] choice_demo) as [[bs c]|] eqn:E.
  2:{ exfalso. revert E. vm_compute. discriminate. }
  pose proof (choices_chist _ _ _ _ choice_demo_hist E) as H.
  assert (Hbs : option_map fst (choices [(4, 1)] choice_demo) = Some [true]) by (vm_compute; reflexivity).
  assert (Heq : option_map (fun x => equivs x.2 !! 1) (choices [(4, 1)] choice_demo) = Some (Some (Some 4))) by (vm_compute; reflexivity).
  assert (Hk : option_map (fun x => ks (cb x.2) !! 4) (choices [(4, 1)] choice_demo) =
     Some (Some (Sig 1 false, Sig 2 false))) by (vm_compute; reflexivity).
  rewrite E in Hbs, Heq, Hk. cbn in Hbs, Heq, Hk. injection Hbs as ->. injection Heq as Heq. injection Hk as Hk.
  exists c, 1. split; [exact H|]. split; [reflexivity|]. clear E H. apply (tc_l _ 1 4 1); [right; exact Heq|]. apply tc_once. left.
  exists (Sig 1 false), (Sig 2 false). split; [exact Hk|]. split; [done|]. split; [done|]. by left.
Qed.
Print Assumptions C38_input_cycle_refuted.
