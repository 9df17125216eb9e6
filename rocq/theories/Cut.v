(* Model of include/database/cut/cut.hpp and include/database/cut/cut_set.hpp.
   The cut data T is a type parameter [D]; func_id (cut_enumeration.hpp:87-92)
   is kept as a separate field.  Leaves are [nat] instead of uint32_t. *)
From Verif Require Import Base.

(* cut.hpp:76-184: the leaves in [begin(), end()), signature and data.
   _length always equals the number of leaves. *)
Record cut (D : Type) := Cut { lvs : list nat; sg : N; fid : N; dat : D }.
Global Arguments Cut {D} _ _ _ _.
Global Arguments lvs {D} _.
Global Arguments sg {D} _.
Global Arguments fid {D} _.
Global Arguments dat {D} _.

(* cut.hpp:231-236: one bit per leaf, index modulo 64 *)
Definition leaf_bit (l : nat) : N := N.shiftl 1 (N.of_nat l mod 64).
Definition sign_of (l : list nat) : N := fold_left (fun a x => N.lor a (leaf_bit x)) l 0%N.

(* the two __builtin_popcount calls of cut.hpp:290 *)
Fixpoint pos_popcount (p : positive) : nat :=
  match p with xH => 1 | xO q => pos_popcount q | xI q => S (pos_popcount q) end.
Definition popcount (n : N) : nat := match n with N0 => 0 | Npos p => pos_popcount p end.
Definition popcount64 (n : N) : nat :=
  popcount (N.land n 0xffffffff) + popcount (N.shiftr n 32).

Section cuts.
Context {D : Type}.
Implicit Types a b c : cut D.

(* cut.hpp:225-244 set_leaves; [cap] is MaxLeaves, [None] the write past the
   end of the leaf array *)
Definition set_leaves (cap : nat) (l : list nat) (c : cut D) : option (cut D) :=
  if decide (length l <= cap) then Some (Cut l (sign_of l) (fid c) (dat c)) else None.

(* cut.hpp:269-279: it2 runs over [that], it1 over [this].  The empty it1 does
   not occur (the caller checks _length, and the loop returns at the end). *)
Fixpoint dom_scan (it2 it1 : list nat) : bool :=
  match it2, it1 with
  | y :: r2, x :: r1 =>
      if x <? y then false
      else if y =? x then match r1 with [] => true | _ => dom_scan r2 r1 end
      else dom_scan r2 it1
  | _, _ => false
  end.

(* cut.hpp:246-282 dominates *)
Definition dominates (a b : cut D) : bool :=
  if (length (lvs b) <? length (lvs a)) || negb (N.land (sg a) (sg b) =? sg a)%N then false
  else if length (lvs a) =? length (lvs b) then bool_decide (lvs a = lvs b)
  else if length (lvs a) =? 0 then true
  else dom_scan (lvs b) (lvs a).

(* std::set_union on sorted ranges (cut.hpp:296); the number of steps is at
   most the total length *)
Fixpoint union_loop (fuel : nat) (l1 l2 : list nat) : list nat :=
  match fuel, l1, l2 with
  | _, [], _ => l2
  | _, _, [] => l1
  | O, _, _ => []
  | S f, x :: r1, y :: r2 =>
      if x <? y then x :: union_loop f r1 l2
      else if y <? x then y :: union_loop f l1 r2
      else x :: union_loop f r1 r2
  end.
Definition set_union (l1 l2 : list nat) : list nat := union_loop (length l1 + length l2) l1 l2.

(* cut.hpp:287-294: does the signature test reject?  The sum wraps at 2^64. *)
Definition merge_filter (a b : cut D) (cut_size : nat) : bool :=
  (cut_size <? length (lvs a) + length (lvs b)) &&
  (cut_size <? popcount64 ((sg a + sg b) mod 2 ^ 64)).

(* cut.hpp:284-305 merge.  Outer [None]: set_union wrote past the end of the
   [cap]-element leaf array of res; inner [None]: merge returned false.  The
   data of res is not touched, so the caller passes it in. *)
Definition merge (cap : nat) (a b res : cut D) (cut_size : nat) : option (option (cut D)) :=
  if merge_filter a b cut_size then Some None
  else let u := set_union (lvs a) (lvs b) in
       if decide (length u <= cap) then
         if length u <=? cut_size
         then Some (Some (Cut u (N.lor (sg a) (sg b)) (fid res) (dat res)))
         else Some None
       else None.

(* cut.hpp:194-199: the default order *)
Definition size_lt (a b : cut D) : bool := length (lvs a) <? length (lvs b).

(* ---- cut_set.hpp ---- *)
(* [arr]: the cuts *_pcuts[0..MaxCuts-1] (the pointers are distinct, so their
   targets are modelled by value), [cn]: _pend - begin = _pcend - begin,
   [clen]: the uint8_t _length. *)
Record cutset := CS { arr : list (cut D); cn : nat; clen : N }.

(* the visible cuts [begin(), end()) *)
Definition vis (s : cutset) : list (cut D) := take (cn s) (arr s).

(* cut_set.hpp:41-57 with default-constructed cuts.  Clearing a used set keeps
   the (stale) cuts, in the order of the _cuts vector; the model keeps them in
   the order of the pointers. *)
Definition cs_new (max : nat) (d : D) : cutset := CS (repeat (Cut [] 0 0 d) max) 0 0.
Definition cs_clear (s : cutset) : cutset := CS (arr s) 0 0.

(* cut_set.hpp:117-126 add_cut; the assertion and the leaf array are [None] *)
Definition add_cut (cap : nat) (l : list nat) (s : cutset) : option cutset :=
  c ← arr s !! cn s;
  c' ← set_leaves cap l c;
  Some (CS (<[cn s := c']> (arr s)) (S (cn s)) ((clen s + 1) mod 256)).

(* cut_set.hpp:132-135 *)
Definition is_dominated (s : cutset) (c : cut D) : bool := existsb (fun o => dominates o c) (vis s).

Section order.
Variable lt : cut D -> cut D -> bool.

(* std::lower_bound: libstdc++'s halving search *)
Fixpoint lower_bound (fuel : nat) (l : list (cut D)) (c : cut D) (first len : nat) : nat :=
  match fuel with
  | O => first
  | S fuel' =>
      if decide (len = 0) then first
      else let half := len / 2 in
           let mid := first + half in
           match l !! mid with
           | Some x => if lt x c then lower_bound fuel' l c (S mid) (len - half - 1)
                       else lower_bound fuel' l c first half
           | None => first
           end
  end.

(* cut_set.hpp:142-179 insert.  stable_partition moves the dominated cuts
   behind the others; the swap loop of lines 166-174 is a rotation. *)
Definition cs_insert (cap : nat) (c : cut D) (s : cutset) : option cutset :=
  if decide (lvs c = []) then None (* assert(cut.size()) *)
  else
    let keep := filter (fun o => dominates c o = false) (vis s) in
    let drp := filter (fun o => dominates c o = true) (vis s) in
    let all := keep ++ drp ++ drop (cn s) (arr s) in
    let ipos := lower_bound (S (length keep)) keep c 0 (length keep) in
    if decide (length keep = length (arr s) /\ ipos = length keep) then
      Some (CS all (length keep) (clen s))
    else
      let pend := if decide (length keep = length (arr s)) then length keep - 1 else length keep in
      icut ← all !! pend;
      icut' ← set_leaves cap (lvs c) icut;
      let icut'' := Cut (lvs icut') (sg icut') (fid c) (dat c) in
      Some (CS (take ipos all ++ [icut''] ++ drop ipos (take pend all) ++ drop (S pend) all)
               (S pend) ((clen s + 1) mod 256)).

(* cut_set.hpp:184-192 *)
Definition update_best (i : nat) (s : cutset) : option cutset :=
  b ← arr s !! i;
  Some (CS ([b] ++ take i (arr s) ++ drop (S i) (arr s)) (cn s) (clen s)).

(* cut_set.hpp:197-204: begin() + size - 1 is before the array for size 0 *)
Definition limit (k : N) (s : cutset) : option cutset :=
  if decide (k < N.of_nat (cn s))%N then
    if decide (k = 0%N) then None
    else Some (CS (arr s) (N.to_nat k - 1) (k mod 256))
  else Some s.

(* how the enumeration uses a set (cut_enumeration.hpp:416-430): a cut is
   inserted only if no present cut dominates it *)
Definition cs_add (cap : nat) (c : cut D) (s : cutset) : option cutset :=
  if is_dominated s c then Some s else cs_insert cap c s.

(* a sequence of such insertions *)
Fixpoint cs_add_all (cap : nat) (l : list (cut D)) (s : cutset) : option cutset :=
  match l with
  | [] => Some s
  | c :: r => s' ← cs_add cap c s; cs_add_all cap r s'
  end.
End order.
End cuts.
Global Arguments cutset _ : clear implicits.

(* ---- specification ---- *)
(* leaves are kept sorted without duplicates, the signature is theirs *)
Definition sorted (l : list nat) : Prop := forall i j a b, i < j -> l !! i = Some a -> l !! j = Some b -> a < b.
Record cut_wf {D} (c : cut D) : Prop := {
  cw_sorted : sorted (lvs c);
  cw_sg : sg c = sign_of (lvs c)
}.

(* Sets of cuts built by guarded insertions and limits, with the list of all
   cuts offered so far. *)
Inductive cs_hist {D} (lt : cut D -> cut D -> bool) (max cap : nat) : list (cut D) -> cutset D -> Prop :=
| csh_new d : cs_hist lt max cap [] (cs_new max d)
| csh_add h s c s' :
    cs_hist lt max cap h s -> cut_wf c -> lvs c <> [] -> length (lvs c) <= cap ->
    cs_add lt cap c s = Some s' -> cs_hist lt max cap (h ++ [c]) s'
| csh_limit h s k s' :
    cs_hist lt max cap h s -> limit k s = Some s' -> cs_hist lt max cap h s'.

(* a strict weak order given as a Boolean function *)
Record swo {A} (lt : A -> A -> bool) : Prop := {
  swo_irr : forall a, lt a a = false;
  swo_trans : forall a b c, lt a b = true -> lt b c = true -> lt a c = true;
  swo_neg : forall a b c, lt a b = false -> lt b c = false -> lt a c = false
}.
