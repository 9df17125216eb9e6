(* Truth tables: kitty::dynamic_truth_table
   (libs/kitty/include/kitty/dynamic_truth_table.hpp:46-172) and the operations
   of kitty/operations.hpp, constructors.hpp and bit_operations.hpp that iMap uses.

   A table over nv variables is the list of its 2^nv bits; bit m is the value
   at the assignment whose variable k is bit k of m.  Simplification: the packing
   into 64-bit words is not modelled; each operation is given by its effect on
   the bits. *)
From Verif Require Import Base.

Record tt := Tt { nv : nat; tb : list bool }.

Global Instance tt_eq_dec : EqDecision tt.
Proof. solve_decision. Defined.

(* index of the assignment x restricted to n variables *)
Fixpoint idx (n : nat) (x : nat -> bool) : nat :=
  match n with
  | O => 0
  | S m => idx m x + Nat.b2n (x m) * 2 ^ m
  end.

(* bit_operations.hpp get_bit *)
Definition get_bit (t : tt) (m : nat) : bool := nth m (tb t) false.
(* value of the function at assignment x *)
Definition tt_eval (t : tt) (x : nat -> bool) : bool := get_bit t (idx (nv t) x).
(* representation invariant: the bit vector has 2^nv valid bits
   (dynamic_truth_table.hpp:58-62, mask_bits 156-162) *)
Definition tt_wf (t : tt) : Prop := length (tb t) = 2 ^ nv t.

Definition tt_tab (n : nat) (f : nat -> bool) : tt := Tt n (map f (seq 0 (2 ^ n))).
(* the table over n variables of x |-> t (sigma x) *)
Definition tt_sub (n : nat) (t : tt) (sigma : (nat -> bool) -> nat -> bool) : tt :=
  tt_tab n (fun m => get_bit t (idx (nv t) (sigma (Nat.testbit m)))).

(* constructors.hpp: create<>, create_nth_var *)
Definition tt_const (n : nat) (b : bool) : tt := Tt n (repeat b (2 ^ n)).
Definition tt_var (n i : nat) : tt := tt_tab n (fun m => Nat.testbit m i).

(* operations.hpp:61-104 *)
Definition tt_not (t : tt) : tt := Tt (nv t) (map negb (tb t)).
Definition tt_and (s t : tt) : tt := Tt (nv s) (zip_with andb (tb s) (tb t)).
Definition tt_or (s t : tt) : tt := Tt (nv s) (zip_with orb (tb s) (tb t)).
Definition tt_xor (s t : tt) : tt := Tt (nv s) (zip_with xorb (tb s) (tb t)).
Definition tt_not_if (t : tt) (c : bool) : tt := if c then tt_not t else t.

(* operations.hpp:220-224 *)
Definition tt_is_const0 (t : tt) : bool := forallb negb (tb t).

(* operations.hpp:346-428 *)
Definition upd_var (x : nat -> bool) (i : nat) (b : bool) : nat -> bool :=
  fun k => if decide (k = i) then b else x k.
Definition tt_cof (b : bool) (t : tt) (i : nat) : tt :=
  tt_sub (nv t) t (fun x => upd_var x i b).
(* operations.hpp:239-262 *)
Definition tt_has_var (t : tt) (i : nat) : bool :=
  negb (bool_decide (tt_cof false t i = tt_cof true t i)).

(* operations.hpp:536-598 swap_inplace *)
Definition swapv (i j k : nat) : nat :=
  if decide (k = i) then j else if decide (k = j) then i else k.
Definition tt_swap (t : tt) (i j : nat) : tt :=
  tt_sub (nv t) t (fun x k => x (swapv i j k)).
(* operations.hpp:648-682 flip_inplace *)
Definition tt_flip (t : tt) (i : nat) : tt :=
  tt_sub (nv t) t (fun x => upd_var x i (negb (x i))).

(* operations.hpp:722-744 min_base_inplace: loop over variables i, with k
   support variables found so far *)
Fixpoint min_base_loop (fuel i k : nat) (t : tt) (supp : list nat) : tt * list nat :=
  match fuel with
  | O => (t, supp)
  | S fuel' =>
      if tt_has_var t i then
        let t' := if decide (k < i) then tt_swap t k i else t in
        min_base_loop fuel' (S i) (S k) t' (supp ++ [i])
      else min_base_loop fuel' (S i) k t supp
  end.
Definition min_base (t : tt) : tt * list nat := min_base_loop (nv t) 0 0 t [].

(* operations.hpp:753-760 expand_inplace: i runs from the last support position
   down to 0; the assertion i <= support[i] is a [None] *)
Fixpoint expand_loop (i : nat) (supp : list nat) (t : tt) : option tt :=
  match i with
  | O => Some t
  | S i' => s ← supp !! i';
            if decide (i' <= s) then expand_loop i' supp (tt_swap t i' s) else None
  end.
Definition tt_expand (t : tt) (supp : list nat) : option tt := expand_loop (length supp) supp t.

(* operations.hpp:775-798, 824-829 extend_to; assertion on the sizes *)
Definition tt_extend (t : tt) (n : nat) : option tt :=
  if decide (nv t <= n) then Some (tt_sub n t (fun x => x)) else None.
(* operations.hpp:842-853, 879-884 shrink_to *)
Definition tt_shrink (t : tt) (n : nat) : option tt :=
  if decide (n <= nv t) then Some (Tt n (take (2 ^ n) (tb t))) else None.
