(* Small monad used by all models of C++ code that mutates a state.
   [None] stands for undefined behaviour, a failed assertion, or a loop that
   runs out of the fuel the model gives it. *)
From stdpp Require Export numbers prelude list.
Local Set Default Proof Using "Type".

Definition M (S A : Type) : Type := S -> option (A * S).

Definition ret {S A} (a : A) : M S A := fun s => Some (a, s).
Definition bnd {S A B} (m : M S A) (k : A -> M S B) : M S B :=
  fun s => match m s with Some (a, s') => k a s' | None => None end.
Definition fail {S A} : M S A := fun _ => None.
Definition lift {S A} (o : option A) : M S A :=
  fun s => match o with Some a => Some (a, s) | None => None end.
Definition get {S} : M S S := fun s => Some (s, s).
Definition put {S} (s : S) : M S unit := fun _ => Some (tt, s).

Declare Scope m_scope.
Delimit Scope m_scope with m.
Notation "'let!' x ':=' m 'in' k" := (bnd m (fun x => k))
  (at level 200, x pattern, m at level 100, k at level 200, right associativity).
Notation "m ';;;' k" := (bnd m (fun _ => k)) (at level 199, right associativity).

(* A list traversal in the monad (range-based for loops). *)
Fixpoint mapM {S A B} (f : A -> M S B) (l : list A) : M S (list B) :=
  match l with
  | [] => ret []
  | x :: r => let! y := f x in let! ys := mapM f r in ret (y :: ys)
  end.

Fixpoint foldM {S A B} (f : B -> A -> M S B) (b : B) (l : list A) : M S B :=
  match l with
  | [] => ret b
  | x :: r => let! b' := f b x in foldM f b' r
  end.

(* Total-correctness judgement: the computation succeeds and satisfies Q. *)
Definition wp {S A} (m : M S A) (s : S) (Q : A -> S -> Prop) : Prop :=
  match m s with Some (a, s') => Q a s' | None => False end.

Lemma wp_ret {S A} (a : A) (s : S) (Q : A -> S -> Prop) : Q a s -> wp (ret a) s Q.
Proof. done. Qed.

Lemma wp_bnd {S A B} (m : M S A) (k : A -> M S B) s (Q : B -> S -> Prop) :
  wp m s (fun a s' => wp (k a) s' Q) -> wp (bnd m k) s Q.
Proof. unfold wp, bnd. destruct (m s) as [[a s']|]; done. Qed.

Lemma wp_mono {S A} (m : M S A) s (P Q : A -> S -> Prop) :
  wp m s P -> (forall a s', P a s' -> Q a s') -> wp m s Q.
Proof. unfold wp. destruct (m s) as [[a s']|]; eauto. Qed.

Lemma wp_get {S} (s : S) (Q : S -> S -> Prop) : Q s s -> wp get s Q.
Proof. done. Qed.

Lemma wp_put {S} (s s0 : S) (Q : unit -> S -> Prop) : Q tt s -> wp (put s) s0 Q.
Proof. done. Qed.

Lemma wp_lift {S A} (o : option A) a (s : S) (Q : A -> S -> Prop) : o = Some a -> Q a s -> wp (lift o) s Q.
Proof. intros ->; done. Qed.

Lemma wp_elim {S A} (m : M S A) s (Q : A -> S -> Prop) :
  wp m s Q -> exists a s', m s = Some (a, s') /\ Q a s'.
Proof. unfold wp. destruct (m s) as [[a s']|]; [eauto|done]. Qed.

Lemma wp_intro {S A} (m : M S A) s a s' (Q : A -> S -> Prop) :
  m s = Some (a, s') -> Q a s' -> wp m s Q.
Proof. unfold wp. intros ->; done. Qed.

(* Loops with an invariant over the elements processed so far. *)
Lemma foldM_wp {S A B} (f : B -> A -> M S B) (I : list A -> B -> S -> Prop) (l : list A) b s :
  I [] b s ->
  (forall p x q b s, l = p ++ x :: q -> I p b s -> wp (f b x) s (fun b' s' => I (p ++ [x]) b' s')) ->
  wp (foldM f b l) s (fun b' s' => I l b' s').
Proof.
  intros H0 Hstep.
  enough (forall q p b s, l = p ++ q -> I p b s -> wp (foldM f b q) s (fun b' s' => I l b' s')) as E
    by (apply (E l []); done).
  clear b s H0. induction q as [|x q IH]; intros p b s El HI; cbn [foldM].
  - apply wp_ret. rewrite app_nil_r in El. by subst.
  - apply wp_bnd. eapply wp_mono; [eapply Hstep; [exact El|exact HI]|]. cbn beta.
    intros b' s' HI'. apply (IH (p ++ [x])); [|done]. by rewrite <- app_assoc.
Qed.

Lemma mapM_wp {S A B} (f : A -> M S B) (I : list A -> list B -> S -> Prop) (l : list A) s :
  I [] [] s ->
  (forall p x q r s, l = p ++ x :: q -> I p r s -> wp (f x) s (fun y s' => I (p ++ [x]) (r ++ [y]) s')) ->
  wp (mapM f l) s (fun r s' => I l r s').
Proof.
  intros H0 Hstep.
  enough (forall q p r s, l = p ++ q -> I p r s -> wp (mapM f q) s (fun r' s' => I l (r ++ r') s')) as E
    by (apply (E l [] []); done).
  clear s H0. induction q as [|x q IH]; intros p r s El HI; cbn [mapM].
  - apply wp_ret. rewrite app_nil_r in *. by subst.
  - apply wp_bnd. eapply wp_mono; [eapply Hstep; [exact El|exact HI]|]. cbn beta.
    intros y s1 H1. apply wp_bnd. eapply wp_mono; [apply (IH (p ++ [x]) (r ++ [y])); [by rewrite <- app_assoc|done]|].
    cbn beta. intros r' s' H'. apply wp_ret. by rewrite <- app_assoc in H'.
Qed.
