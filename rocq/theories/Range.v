(* Model of include/utils/range.hpp: tree_reduce and ternary_tree_reduce. *)
From Verif Require Import Base.

(* range.hpp:26-45.  The recursion is on sub-ranges of smaller length; fuel =
   length suffices (Aig.tree_reduceM is the same function with effects). *)
Fixpoint tree_reduce_f {A} (fuel : nat) (op : A -> A -> A) (init : A) (l : list A) : option A :=
  match fuel with
  | O => None
  | S fuel' =>
      match l with
      | [] => Some init
      | [x] => Some x
      | [x; y] => Some (op x y)
      | _ => let m := length l / 2 in
             a ← tree_reduce_f fuel' op init (take m l);
             b ← tree_reduce_f fuel' op init (drop m l);
             Some (op a b)
      end
  end.
Definition tree_reduce {A} (op : A -> A -> A) (init : A) (l : list A) : option A :=
  tree_reduce_f (S (length l)) op init l.

(* range.hpp:47-72 *)
Fixpoint ternary_tree_reduce_f {A} (fuel : nat) (op : A -> A -> A -> A) (init : A) (l : list A) : option A :=
  match fuel with
  | O => None
  | S fuel' =>
      match l with
      | [] => Some init
      | [x] => Some x
      | [x; y] => Some (op init x y)
      | [x; y; z] => Some (op x y z)
      | _ => let m1 := length l / 3 in
             let m2 := (length l - m1) / 2 in
             a ← ternary_tree_reduce_f fuel' op init (take m1 l);
             b ← ternary_tree_reduce_f fuel' op init (take m2 (drop m1 l));
             c ← ternary_tree_reduce_f fuel' op init (drop (m1 + m2) l);
             Some (op a b c)
      end
  end.
Definition ternary_tree_reduce {A} (op : A -> A -> A -> A) (init : A) (l : list A) : option A :=
  ternary_tree_reduce_f (S (length l)) op init l.

(* ---- specification: sequential fold from the first element ---- *)
Definition seq_fold {A} (op : A -> A -> A) (init : A) (l : list A) : A :=
  match l with
  | [] => init
  | x :: r => fold_left op r x
  end.
