(* Model of kitty::exact_npn_canonization, libs/kitty/include/kitty/npn.hpp:151-253,
   for tables of 2 to 4 variables (iMap uses it for 4; the tables of the code for
   5 and 6 variables are left out). *)
From Verif Require Import Base Tt.

(* kitty/detail/constants.hpp:134-156, entries num_vars - 2 *)
Definition swaps_of (n : nat) : option (list nat) :=
  match n with
  | 2 => Some [0]
  | 3 => Some [1; 0; 1; 0; 1]
  | 4 => Some [2; 1; 0; 2; 0; 1; 2; 0; 2; 1; 0; 2; 0; 1; 2; 0; 2; 1; 0; 2; 0; 1; 2]
  | _ => None
  end.
Definition flips_of (n : nat) : option (list nat) :=
  match n with
  | 2 => Some [0; 1; 0]
  | 3 => Some [0; 1; 0; 2; 0; 1; 0]
  | 4 => Some [0; 1; 0; 2; 0; 1; 0; 3; 0; 1; 0; 2; 0; 1; 0]
  | _ => None
  end.

(* kitty/operations.hpp:451-507 swap_adjacent_inplace *)
Definition tt_swap_adj (t : tt) (p : nat) : tt := tt_swap t p (S p).

(* kitty/operations.hpp less_than: tables are compared as numbers *)
Fixpoint bits_num (l : list bool) : N :=
  match l with
  | [] => 0
  | b :: l' => (N.b2n b + 2 * bits_num l')%N
  end.
Definition tt_num (t : tt) : N := bits_num (tb t).
Definition tt_lt (a b : tt) : bool := (tt_num a <? tt_num b)%N.
(* std::min *)
Definition tt_min (a b : tt) : tt := if tt_lt b a then b else a.

(* the local variables; best_swap and best_flip are stored plus one *)
Record npn := Npn { np_t1 : tt; np_t2 : tt; np_min : tt; np_inv : bool; np_swap : nat; np_flip : nat }.

(* npn.hpp:179-181 *)
Definition npn_start (t : tt) : npn :=
  let t2 := tt_not t in let m := tt_min t t2 in Npn t t2 m (bool_decide (m = t2)) 0 0.
(* npn.hpp:201-206, 221-227, 238-244 *)
Definition npn_visit (bs bf : nat) (st : npn) : npn :=
  let '(Npn t1 t2 m i s f) := st in
  if tt_lt t1 m || tt_lt t2 m then let m' := tt_min t1 t2 in Npn t1 t2 m' (bool_decide (m' = t2)) bs bf
  else st.
Definition npn_apply (g : tt -> tt) (st : npn) : npn :=
  let '(Npn t1 t2 m i s f) := st in Npn (g t1) (g t2) m i s f.
(* npn.hpp:192-207, 229-245: one round of swaps *)
Definition npn_swaps (swaps : list nat) (bf : nat) (st : npn) : npn :=
  foldl (fun st p => npn_visit (S p.1) bf (npn_apply (fun t => tt_swap_adj t p.2) st)) st (imap pair swaps).
(* npn.hpp:209-246 *)
Definition npn_flips (swaps flips : list nat) (st : npn) : npn :=
  foldl (fun st p =>
    npn_swaps swaps (S p.1) (npn_visit 0 (S p.1) (npn_apply (fun t => tt_flip (tt_swap_adj t 0) p.2) st)))
    st (imap pair flips).

(* npn.hpp:248-255: the permutation *)
Definition swap_entries (l : list nat) (p : nat) : list nat :=
  map (fun i => nth (swapv p (S p) i) l 0) (seq 0 (length l)).
Definition npn_perm (n : nat) (swaps : list nat) : list nat := foldl swap_entries (seq 0 n) swaps.
(* npn.hpp:257-261: the phase, bit n for the output *)
Definition npn_phase (n : nat) (inv : bool) (flips : list nat) : N :=
  foldl (fun ph p => N.lxor ph (N.shiftl 1 (N.of_nat p))) (N.shiftl (N.b2n inv) (N.of_nat n)) flips.

(* npn.hpp:151-263 *)
Definition exact_npn_canonization (t : tt) : option (tt * N * list nat) :=
  swaps ← swaps_of (nv t);
  flips ← flips_of (nv t);
  let st := npn_flips swaps flips (npn_swaps swaps 0 (npn_start t)) in
  Some (np_min st, npn_phase (nv t) (np_inv st) (take (np_flip st) flips), npn_perm (nv t) (take (np_swap st) swaps)).

(* ---- specification ---- *)
(* t and u are the same function up to a permutation pi of the inputs, negation of
   inputs (phi) and negation of the output (o) *)
Definition npn_via (n : nat) (pi : nat -> nat) (phi : nat -> bool) (o : bool) (t u : tt) : Prop :=
  (forall i, i < n -> pi i < n) /\ (forall i j, i < n -> j < n -> pi i = pi j -> i = j) /\
  forall x y, (forall i, i < n -> x i = xorb (y (pi i)) (phi (pi i))) -> tt_eval u x = xorb (tt_eval t y) o.
Definition npn_equiv (n : nat) (t u : tt) : Prop := exists pi phi o, npn_via n pi phi o t u.
