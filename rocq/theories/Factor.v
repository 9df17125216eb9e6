(* Algebraic factoring: include/operations/optimization/detail/sop_refactoring.hpp.

   A product is a 64-bit word with bit 2v for the negative and bit 2v+1 for the
   positive literal of variable v; bit 63 is the "covered" mark of sop_divide.
   A sum of products is the list of its words.  Simplification: the uint32_t
   counters and costs do not wrap (sums of products with fewer than 2^31
   literals).  sop_kernels_rec and sop_least_lit, which nothing calls, are not
   modelled. *)
From Verif Require Import Base Aig Tt Isop.

Notation sop := (list N).

(* sop_refactoring.hpp:37-40 cube_has_lit *)
Definition has_lit (c : N) (l : nat) : bool := N.testbit c (N.of_nat l).
(* 45-54 cube_count_lit: clear the lowest bit until nothing is left *)
Fixpoint count_go (fuel : nat) (c : N) : nat :=
  match fuel with
  | O => 0
  | S f => if decide (c = 0%N) then 0 else S (count_go f (N.land c (c - 1)))
  end.
Definition cube_count_lit (c : N) : nat := count_go 64 c.
(* 179-189 sop_count_lit *)
Definition sop_count_lit (f : sop) : nat := sum_list (map cube_count_lit f).

Definition occurs (f : sop) (l : nat) : nat := length (filter (fun c => has_lit c l = true) f).
(* 59-79 sop_lit_occur *)
Definition sop_lit_occur (f : sop) (nl : nat) : option nat :=
  head (filter (fun l => 1 < occurs f l) (seq 0 nl)).
(* 114-142 sop_most_lit: -1 is None *)
Definition sop_most_lit (f : sop) (c : N) (nl : nat) : option nat :=
  (fold_left (fun '(m, times) l =>
    if has_lit c l then (if decide (times < occurs f l) then (Some l, occurs f l) else (m, times)) else (m, times))
    (seq 0 nl) (None, 1)).1.
Definition all_ones : N := 2 ^ 64 - 1.
Definition common (f : sop) : N := fold_left N.land f all_ones.
(* 146-162 get_most_lit: the common cube of the products with literal l *)
Definition get_most_lit (f : sop) (l : nat) : option N :=
  if decide (1 < occurs f l) then Some (common (filter (fun c => has_lit c l = true) f)) else None.
(* 167-172 sop_best_lit; shifting by -1 is undefined *)
Definition sop_best_lit (f : sop) (c : N) (nl : nat) : option N :=
  l ← sop_most_lit f c nl; Some (2 ^ N.of_nat l)%N.

(* 195-210 sop_make_cube_free, 215-225 sop_is_cube_free *)
Definition sop_make_cube_free (f : sop) : sop :=
  if decide (common f = 0%N) then f else map (fun c => N.ldiff c (common f)) f.
Definition sop_is_cube_free (f : sop) : bool := bool_decide (common f = 0%N).
(* 230-242 sop_divide_by_lit: p <= i, so no entry is overwritten before it is read *)
Definition sop_divide_by_lit (f : sop) (l : nat) : sop :=
  map (fun c => N.ldiff c (2 ^ N.of_nat l)) (filter (fun c => has_lit c l = true) f).
(* 248-269 sop_divide_by_cube: quotient and reminder *)
Definition sop_divide_by_cube (f : sop) (d : N) : sop * sop :=
  (map (fun c => N.ldiff c d) (filter (fun c => N.land c d = d) f), filter (fun c => N.land c d <> d) f).

(* 295-397 sop_divide.  The divident is passed by reference and marked. *)
Definition covered63 (c : N) : bool := has_lit c 63.
Definition mark (c : N) : N := N.lor c (2 ^ 63).
(* the product q * d *)
Definition fits (q d c : N) : bool :=
  negb (covered63 c) && bool_decide (N.land c d = d) && bool_decide (q = N.ldiff c d).
Fixpoint mark_first (q d : N) (f : sop) : sop :=
  match f with
  | [] => []
  | c :: r => if fits q d c then mark c :: r else c :: mark_first q d r
  end.
Definition divide_step (ds : sop) (st : sop * sop) (i : nat) : option (sop * sop) :=
  let '(f, quot) := st in
  c ← f !! i;
  if covered63 c then Some st else
  match head (filter (fun d => N.land c d = d) ds) with
  | None => Some st
  | Some d0 =>
      let q := N.ldiff c d0 in
      if forallb (fun d => bool_decide (d = d0) || existsb (fits q d) f) ds then
        let f1 := <[i := mark c]> f in
        let f2 := fold_left (fun g d => if decide (d = d0) then g else mark_first q d g) ds f1 in
        Some (f2, quot ++ [q])
      else Some st
  end.
Fixpoint divide_loop (ds : sop) (is : list nat) (st : sop * sop) : option (sop * sop) :=
  match is with
  | [] => Some st
  | i :: r => st' ← divide_step ds st i; divide_loop ds r st'
  end.
(* divident afterwards, quotient, reminder *)
Definition sop_divide (f ds : sop) : option (sop * sop * sop) :=
  match ds with
  | [d] => let '(q, r) := sop_divide_by_cube f d in Some (f, q, r)
  | _ =>
      '(f', q) ← divide_loop ds (seq 0 (length f)) (f, []);
      Some (map (fun c => if covered63 c then N.ldiff c (2 ^ 63) else c) f', q,
            filter (fun c => covered63 c = false) f')
  end.

(* 432-475 sop_best_kernel_rec.  State: the SOP (marked and unmarked by the
   divisions), the best kernel and its cost. *)
Record kstate := Ks { k_sop : sop; k_best : sop; k_cost : nat }.
(* the loop 451-468; fact is best_fact_cost *)
Fixpoint kernel_loop (rec : sop -> nat -> kstate -> option (nat * kstate)) (kernel : sop) (is : list nat) (fact : nat)
    (st : kstate) : option (nat * kstate) :=
  match is with
  | [] => Some (fact, st)
  | i :: r =>
      match get_most_lit kernel i with
      | None => kernel_loop rec kernel r fact st
      | Some c =>
          if decide (N.land c (2 ^ N.of_nat i - 1) = 0%N) then
            let '(nk, rem) := sop_divide_by_cube kernel c in
            let rec_cost := cube_count_lit c + sop_count_lit rem in
            '(fc, st') ← rec nk (S i) st;
            kernel_loop rec kernel r (if decide (fc + rec_cost < fact) then fc + rec_cost else fact) st'
          else kernel_loop rec kernel r fact st
      end
  end.
Fixpoint best_kernel_rec (nl fuel : nat) (kernel : sop) (j : nat) (st : kstate) : option (nat * kstate) :=
  match fuel with
  | O => None
  | S fuel' =>
      '(f1, quot, rem) ← sop_divide (k_sop st) kernel;
      let division_cost := sop_count_lit quot + sop_count_lit rem in
      '(fact, st) ← kernel_loop (best_kernel_rec nl fuel') kernel (seq j (nl - j)) (sop_count_lit kernel)
                      (Ks f1 (k_best st) (k_cost st));
      Some (fact,
        if decide (k_best st = [] \/ division_cost + fact < k_cost st) then Ks (k_sop st) kernel (division_cost + fact)
        else st)
  end.
(* 481-498 sop_good_divisor: None is false; the divisor and the divident *)
Definition sop_good_divisor (f : sop) (nl : nat) : option (option (sop * sop)) :=
  if decide (length f <= 1) then Some None
  else match sop_lit_occur f nl with
       | None => Some None
       | Some _ =>
           '(_, st) ← best_kernel_rec nl (S nl) f 0 (Ks f [] 0);
           Some (Some (k_best st, k_sop st))
       end.

(* 506-528 cubes_to_sop *)
Definition cube_to_product (nvars : nat) (c : cube) : N :=
  fold_left (fun p i => if get_cmask c i then N.lor p (2 ^ N.of_nat (2 * i + Nat.b2n (get_cbit c i))) else p) (seq 0 nvars) 0%N.
Definition cubes_to_sop (cs : list cube) (nvars : nat) : sop := map (cube_to_product nvars) cs.

(* 694-741 gen_and_circuit_rec *)
Fixpoint gen_and_circuit_rec (fuel : nat) (children : list signal) (c : N) (b e : nat) : M aig signal :=
  match fuel with
  | O => fail
  | S f =>
      match filter (fun l => has_lit c l = true) (seq b (e - b)) with
      | [] => fail (* assert( num_lit > 0 ) *)
      | [l] => let! x := lift (children !! (l / 2)) in
               ret (if Nat.odd l then x else snot x)
      | ls => let! i := lift (ls !! (length ls / 2)) in
              let! x := gen_and_circuit_rec f children c b i in
              let! y := gen_and_circuit_rec f children c i e in
              create_and x y
      end
  end.
(* 743-761 gen_andor_circuit_rec *)
Fixpoint gen_andor_circuit_rec (fuel : nat) (children : list signal) (f : sop) (nl : nat) : M aig signal :=
  match fuel with
  | O => fail
  | S fuel' =>
      match f with
      | [] => fail (* assert( num_prod > 0 ) *)
      | [c] => gen_and_circuit_rec (S nl) children c 0 nl
      | _ => let! x := gen_andor_circuit_rec fuel' children (take (length f / 2) f) nl in
             let! y := gen_andor_circuit_rec fuel' children (drop (length f / 2) f) nl in
             create_or x y
      end
  end.

(* 661-692 lit_factor_rec *)
Definition lit_factor (rec : sop -> M aig signal) (children : list signal) (f : sop) (c : N) (nl : nat) : M aig signal :=
  let! d := lift (sop_best_lit f c nl) in
  let '(quot, rem) := sop_divide_by_cube f d in
  let! ds := gen_and_circuit_rec (S nl) children d 0 nl in
  let! qs := rec quot in
  let! dq := create_and ds qs in
  if decide (rem = []) then ret dq
  else let! rs := rec rem in create_or dq rs.
(* 607-659 gen_factor_rec *)
Fixpoint gen_factor_rec (fuel : nat) (children : list signal) (f : sop) (nl : nat) : M aig signal :=
  match fuel with
  | O => fail
  | S fuel' =>
      if decide (f = []) then fail (* assert( sop.size() ) *)
      else
        let! g := lift (sop_good_divisor f nl) in
        match g with
        | None => gen_andor_circuit_rec (S (length f)) children f nl
        | Some (dv, f1) =>
            let! x := lift (sop_divide f1 dv) in
            let '(f2, quot, _) := x in
            match quot with
            | [] => fail (* assert( quotient.size() > 0 ) *)
            | [q] => lit_factor (fun g => gen_factor_rec fuel' children g nl) children f2 q nl
            | _ =>
                let quot := sop_make_cube_free quot in
                let! y := lift (sop_divide f2 quot) in
                let '(f3, dv, rem) := y in
                if sop_is_cube_free dv then
                  let! ds := gen_factor_rec fuel' children dv nl in
                  let! qs := gen_factor_rec fuel' children quot nl in
                  let! dq := create_and ds qs in
                  if decide (rem = []) then ret dq
                  else let! rs := gen_factor_rec fuel' children rem nl in create_or dq rs
                else lit_factor (fun g => gen_factor_rec fuel' children g nl) children f3 (common dv) nl
            end
        end
  end.

(* 572-605 get_isop: cubes, negated *)
Definition cube_literals (c : cube) : nat := count_go 32 (cmask c).
Definition get_isop (t : tt) : option (list cube * bool) :=
  cs ← isop t;
  ns ← isop (tt_not t);
  if decide (length ns < length cs) then Some (ns, true)
  else if decide (length ns = length cs /\ sum_list (map cube_literals ns) < sum_list (map cube_literals cs)) then Some (ns, true)
  else Some (cs, false).
(* 540-569 operator(): the signal given to the callback *)
Definition sop_factoring (t : tt) (leaves : list signal) : M aig signal :=
  if decide (nv t <= 31) then
    if tt_is_const0 t then ret (get_constant false)
    else if tt_is_const0 (tt_not t) then ret (get_constant true)
    else
      let! x := lift (get_isop t) in
      let '(cs, neg) := x in
      let f := cubes_to_sop cs (nv t) in
      let! s := gen_factor_rec (S (sop_count_lit f)) leaves f (2 * nv t) in
      ret (if neg : bool then snot s else s)
  else fail.

(* ---- specification ---- *)
(* literal l under the assignment x *)
Definition lit_val (x : nat -> bool) (l : nat) : bool := if Nat.odd l then x (l / 2) else negb (x (l / 2)).
Definition prod_val (x : nat -> bool) (c : N) : bool :=
  forallb (fun l => implb (N.testbit c (N.of_nat l)) (lit_val x l)) (seq 0 64).
Definition sop_val (x : nat -> bool) (f : sop) : bool := existsb (prod_val x) f.
(* words without the mark *)
Definition unmarked (f : sop) : Prop := Forall (fun c => (c < 2 ^ 63)%N) f.
(* all literals of a times all literals of b, if they have none in common *)
Definition product (ds qs : sop) : sop := flat_map (fun q => map (N.lor q) ds) qs.
Definition apart (qs ds : sop) : Prop := forall q d, q ∈ qs -> d ∈ ds -> N.land q d = 0%N.
(* no product is contained in another one *)
Definition no_containment (f : sop) : Prop :=
  forall i j c d, f !! i = Some c -> f !! j = Some d -> N.land c d = c -> i = j.
