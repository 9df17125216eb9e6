(* Cubes and irredundant sums of products:
   libs/kitty/include/kitty/cube.hpp, isop.hpp and cnf.hpp. *)
From Verif Require Import Base Tt.

(* cube.hpp:44-283: polarity bits and care mask.  The fields are 32 bits wide;
   the model does not truncate, so it speaks about variables below 32 only. *)
Record cube := Cube { cbits : N; cmask : N }.
(* cube.hpp:51 the empty cube *)
Definition cube_one : cube := Cube 0 0.
(* cube.hpp:200-231 *)
Definition get_cbit (c : cube) (i : nat) : bool := N.testbit (cbits c) (N.of_nat i).
Definition get_cmask (c : cube) (i : nat) : bool := N.testbit (cmask c) (N.of_nat i).
(* cube.hpp:148-160 add_literal *)
Definition add_literal (i : nat) (polarity : bool) (c : cube) : cube :=
  Cube (if polarity then N.setbit (cbits c) (N.of_nat i) else N.clearbit (cbits c) (N.of_nat i))
       (N.setbit (cmask c) (N.of_nat i)).
(* cube.hpp:163-167 remove_literal *)
Definition remove_literal (i : nat) (c : cube) : cube :=
  Cube (N.clearbit (cbits c) (N.of_nat i)) (N.clearbit (cmask c) (N.of_nat i)).

(* isop.hpp:63-72: largest variable below n that t or d depends on *)
Fixpoint top_var (t d : tt) (n : nat) : option nat :=
  match n with
  | O => None (* assert( var >= 0 ) *)
  | S m => if tt_has_var t m || tt_has_var d m then Some m else top_var t d m
  end.

Definition tt_diff (s t : tt) : tt := tt_and s (tt_not t).

(* isop.hpp:45-110 isop_rec: the returned table and the cubes appended to the
   vector.  Assertions are [None]; the fuel bounds the recursion depth. *)
Fixpoint isop_rec (fuel : nat) (t d : tt) (n : nat) : option (tt * list cube) :=
  match fuel with
  | O => None
  | S fuel' =>
      if negb (bool_decide (n <= nv t)) then None else
      if negb (tt_is_const0 (tt_diff t d)) then None else
      if tt_is_const0 t then Some (t, [])
      else if tt_is_const0 (tt_not d) then Some (d, [cube_one])
      else
        v ← top_var t d n;
        let t0 := tt_cof false t v in
        let t1 := tt_cof true t v in
        let d0 := tt_cof false d v in
        let d1 := tt_cof true d v in
        '(r0, c0) ← isop_rec fuel' (tt_diff t0 d1) d0 v;
        '(r1, c1) ← isop_rec fuel' (tt_diff t1 d0) d1 v;
        '(r2, c2) ← isop_rec fuel' (tt_or (tt_diff t0 r0) (tt_diff t1 r1)) (tt_and d0 d1) v;
        let r := tt_or r2 (tt_or (tt_and r0 (tt_not (tt_var (nv t) v))) (tt_and r1 (tt_var (nv t) v))) in
        if negb (tt_is_const0 (tt_diff t r)) then None else
        if negb (tt_is_const0 (tt_diff r d)) then None else
        Some (r, map (add_literal v false) c0 ++ map (add_literal v true) c1 ++ c2)
  end.

(* isop.hpp:124-132 *)
Definition isop (t : tt) : option (list cube) :=
  '(_, cs) ← isop_rec (S (nv t)) t t (nv t); Some cs.

(* cnf.hpp:53-58, 64-69: complement the polarities, add the output literal *)
Definition cnf_clause (n : nat) (out : bool) (c : cube) : cube :=
  add_literal n out (Cube (N.ldiff (cmask c) (cbits c)) (cmask c)).
(* cnf.hpp:47-72 cnf_characteristic *)
Definition cnf_characteristic (t : tt) : option (list cube) :=
  '(_, c1) ← isop_rec (S (nv t)) t t (nv t);
  '(_, c0) ← isop_rec (S (nv t)) (tt_not t) (tt_not t) (nv t);
  Some (map (cnf_clause (nv t) true) c1 ++ map (cnf_clause (nv t) false) c0).

(* ---- specification ---- *)
(* cube c contains the assignment x *)
Definition cube_on (c : cube) (x : nat -> bool) : Prop :=
  forall i, get_cmask c i = true -> x i = get_cbit c i.
(* the union of the cubes contains x *)
Definition covered (cs : list cube) (x : nat -> bool) : Prop := exists c, c ∈ cs /\ cube_on c x.
(* every cube contains a point of t that no other cube contains *)
Definition irredundant (cs : list cube) (t : tt) : Prop :=
  forall i c, cs !! i = Some c -> exists x, tt_eval t x = true /\ cube_on c x /\
    forall j c', cs !! j = Some c' -> cube_on c' x -> j = i.
(* no literal can be removed from any cube *)
Definition primes (cs : list cube) (d : tt) : Prop :=
  forall c i, c ∈ cs -> get_cmask c i = true ->
    exists x, cube_on (remove_literal i c) x /\ tt_eval d x = false.
(* only variables below n occur, and polarities are set for them only *)
Definition cube_below (n : nat) (c : cube) : Prop :=
  (forall i, get_cmask c i = true -> i < n) /\ (forall i, get_cbit c i = true -> get_cmask c i = true).
(* read as a clause: some literal of the cube holds *)
Definition clause_on (c : cube) (x : nat -> bool) : Prop :=
  exists i, get_cmask c i = true /\ x i = get_cbit c i.
