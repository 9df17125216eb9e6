(* Model of include/utils/truth_table_cache.hpp. *)
From Verif Require Import Base Tt.

(* truth_table_cache.hpp:96-98.  The unordered_map _indexes is modelled by an
   association list (insertion only, keys compared with kitty's operator==,
   operations.hpp:153-162, which is equality of variable count and bits). *)
Record cache := Cache { cdata : list tt; cidx : list (tt * N) }.

(* truth_table_cache.hpp:101-106 (capacity reservation has no effect) *)
Definition cache_empty : cache := Cache [] [].

Fixpoint assoc (t : tt) (l : list (tt * N)) : option N :=
  match l with
  | [] => None
  | (u, i) :: r => if decide (u = t) then Some i else assoc t r
  end.

(* truth_table_cache.hpp:108-133; literals are uint32_t *)
Definition cache_insert (t : tt) (c : cache) : N * cache :=
  let is_compl := get_bit t 0 in
  let t' := if is_compl then tt_not t else t in
  match assoc t' (cidx c) with
  | Some i => (((2 * i + N.b2n is_compl) mod 2 ^ 32)%N, c)
  | None =>
      let size := N.of_nat (length (cdata c)) in
      (((2 * size + N.b2n is_compl) mod 2 ^ 32)%N,
       Cache (cdata c ++ [t']) ((t', (size mod 2 ^ 32)%N) :: cidx c))
  end.

(* truth_table_cache.hpp:135-140; None = read past the end of _data *)
Definition cache_get (l : N) (c : cache) : option tt :=
  e ← cdata c !! N.to_nat (l / 2);
  Some (if N.odd l then tt_not e else e).

(* ---- specification ---- *)
(* all inserts so far (most recent last) with the literals they returned *)
Inductive cache_hist : list (tt * N) -> cache -> Prop :=
| ch_empty : cache_hist [] cache_empty
| ch_insert h c t l c' :
    cache_hist h c -> tt_wf t -> cache_insert t c = (l, c') -> cache_hist (h ++ [(t, l)]) c'.
