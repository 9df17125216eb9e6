(* Concrete networks, used beside the property theorems to show that their
   hypotheses are met by non-trivial reachable states. *)
From Verif Require Import Base Aig AigSem.

(* Run a list of calls, checking that operands are signals of the network. *)
Fixpoint checked (ops : list op) (h : list (op * signal)) (s : aig)
  : option (list (op * signal) * aig) :=
  match ops with
  | [] => Some (h, s)
  | o :: r => if forallb (fun f => sidx f <? size s) (operands o)
              then match step o s with
                   | Some (f, s') => checked r (h ++ [(o, f)]) s'
                   | None => None
                   end
              else None
  end.

Lemma checked_ok ops : forall h s h' s', hist h s -> reachable s ->
  checked ops h s = Some (h', s') -> hist h' s' /\ reachable s'.
Proof.
  induction ops as [|o r IH]; cbn; intros h s h' s' Hh Hr Hc; [by injection Hc as <- <-|].
  destruct (forallb _ _) eqn:E; [|done]. destruct (step o s) as [[f s1]|] eqn:Hs; [|done].
  assert (Forall (valid s) (operands o)).
  { apply Forall_forall. intros x Hx. rewrite forallb_forall in E.
    specialize (E x (proj1 (elem_of_list_In _ _) Hx)). apply Nat.ltb_lt in E. exact E. }
  eapply IH; [| |exact Hc]; econstructor; eauto.
Qed.

(* One bucket: the demos also exercise chains and table growth. *)
Definition demo_init : aig := aig_init_n 1.

Definition build (ops : list op) : aig :=
  match checked ops [] demo_init with Some (_, s) => s | None => demo_init end.
Definition build_hist (ops : list op) : list (op * signal) :=
  match checked ops [] demo_init with Some (h, _) => h | None => [] end.

Lemma build_hist_ok ops : bool_decide (is_Some (checked ops [] demo_init)) = true ->
  hist (build_hist ops) (build ops).
Proof.
  intros H%bool_decide_eq_true. unfold build, build_hist.
  destruct (checked ops [] demo_init) as [[h s]|] eqn:E; [|by destruct H].
  eapply checked_ok; [| |exact E]; constructor; lia.
Qed.

Lemma build_reachable ops : bool_decide (is_Some (checked ops [] demo_init)) = true ->
  reachable (build ops).
Proof.
  intros H%bool_decide_eq_true. unfold build.
  destruct (checked ops [] demo_init) as [[h s]|] eqn:E; [|by destruct H].
  eapply checked_ok; [| |exact E]; constructor; lia.
Qed.

(* inputs 1 2 3; 4 = x1 & !x2; 7 = x4 xor x3; output !7; register output 8;
   ite gates 9.. ; register input *)
Definition demo_ops : list op :=
  [OpPi; OpPi; OpPi; OpAnd (Sig 1 false) (Sig 2 true); OpXor (Sig 4 false) (Sig 3 false);
   OpPo (Sig 7 true); OpRo; OpIte (Sig 8 false) (Sig 4 true) (Sig 3 false); OpRi (Sig 10 true) 0%Z].
Definition demo : aig := build demo_ops.
Definition demo_hist := build_hist demo_ops.

Lemma demo_reachable : reachable demo.
Proof. apply build_reachable. vm_compute. reflexivity. Qed.
Lemma demo_hist_ok : hist demo_hist demo.
Proof. apply build_hist_ok. vm_compute. reflexivity. Qed.

Lemma valid_check s l : forallb (fun f => sidx f <? size s) l = true -> Forall (valid s) l.
Proof.
  rewrite forallb_forall. intros E. apply Forall_forall. intros x Hx.
  specialize (E x (proj1 (elem_of_list_In _ _) Hx)). apply Nat.ltb_lt in E. exact E.
Qed.

(* Continue a run: used to exhibit [later] states. *)
Lemma checked_later ops : forall h s h' s',
  checked ops h s = Some (h', s') -> later s s'.
Proof.
  assert (G : forall ops h s0 s h' s', later s0 s -> checked ops h s = Some (h', s') -> later s0 s').
  { induction ops0 as [|o r IH]; cbn; intros h s0 s h' s' Hl Hc; [by injection Hc as <- <-|].
    destruct (forallb _ _) eqn:E; [|done]. destruct (step o s) as [[f s1]|] eqn:Hs; [|done].
    eapply IH; [|exact Hc]. econstructor; [done|by apply valid_check|exact Hs]. }
  intros h s h' s' Hc. eapply G; [constructor|exact Hc].
Qed.

(* Outcome of a run as plain data: no large terms in proofs. *)
Definition get_some {A} (d : A) (x : option A) : A := match x with Some a => a | None => d end.
Lemma later_check ops s : bool_decide (is_Some (checked ops [] s)) = true ->
  later s (get_some ([], s) (checked ops [] s)).2.
Proof.
  intros H%bool_decide_eq_true. destruct (checked ops [] s) as [[h s']|] eqn:E; [|by destruct H].
  eapply checked_later, E.
Qed.
