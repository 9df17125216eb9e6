(* Model of include/operations/algorithms/klut_mapping.hpp, the LUT mapper, with
   the cut orders of include/database/cut/general_cut_enumeration.hpp.

   The network is an AIG with choice links (aig_with_choice inside mapping_view).
   Floating-point numbers are an arbitrary type with the operations the code
   uses ([fops]; one type for float and float_t), reference counts and the
   statistics that nothing depends on (area_glo, power_glo, edge_size,
   delay_current, area_current) are unbounded or left out.  The arrays indexed by
   nodes (arrival_times, require_times, est_refs, refs) are total functions; the
   vectors of cut sets and best cuts are bounds-checked.  A default-constructed
   cut is a cut without leaves.  The recursions get twice the number of nodes
   plus two as fuel. *)
From Verif Require Import Base Aig AigSem Clean Tt TtCache Cut CutEnum Choice Mapping.

Record fops := Fops {
  F : Type;
  f0 : F;             (* 0.0f *)
  f1 : F;             (* 1.0f *)
  fbig : F;           (* numeric_limits<float>::max() *)
  feps : F;           (* 0.005f: gv_eps, fEpsilon *)
  fcap : F;           (* 1e32 *)
  fadd : F -> F -> F;
  fsub : F -> F -> F;
  fmul : F -> F -> F;
  fdiv : F -> F -> F;
  flt : F -> F -> bool;
  feq : F -> F -> bool;
  fof : nat -> F      (* conversion of an unsigned number *)
}.

(* klut_mapping.hpp:80-103; parameters that are read nowhere are left out *)
Record kparams := KParams {
  kcut : cut_ps;
  kPreprocess : bool; kArea : bool; kFancy : bool; kZeroGain : bool;
  kFlowIters : nat; kAreaIters : nat
}.
(* klut_mapping.hpp:171-187 init_parameters *)
Definition init_parameters (p : kparams) : kparams :=
  KParams (kcut p) true false false (kZeroGain p) 1 2.

(* cut.hpp:33-38 *)
Inductive etc := EDelay | EDelay2 | EArea.

Section klut.
Context (A : fops).
Notation fl := (F A).

(* cut_data.hpp:35-42 *)
Record gdata := GData { delay : fl; area : fl; edge : fl; power : fl; useless : nat }.
Definition g0 : gdata := GData (f0 A) (f0 A) (f0 A) (f0 A) 0.
Notation gcut := (cut gdata).

Definition fle (x y : fl) : bool := flt A x y || feq A x y.
(* std::max(a, b), std::min(a, b) *)
Definition fmax (a b : fl) : fl := if flt A a b then b else a.
Definition fmin (a b : fl) : fl := if flt A b a then b else a.
(* fabs(a - b) < 0.005 *)
Definition fnear (a b : fl) : bool :=
  let d := fsub A a b in
  flt A (if flt A d (f0 A) then fsub A (f0 A) d else d) (feps A).

(* one step of a comparator: decide by x, or go on *)
Definition by_num (x y : fl) (next : bool) : bool :=
  if flt A x (fsub A y (feps A)) then true
  else if flt A (fadd A y (feps A)) x then false else next.
Definition by_nat (x y : nat) (next : bool) : bool :=
  if x <? y then true else if y <? x then false else next.

(* general_cut_enumeration.hpp:33-125 *)
Definition glt (e : etc) (a b : gcut) : bool :=
  let x := dat a in let y := dat b in
  let size := by_nat (length (lvs a)) (length (lvs b)) in
  match e with
  | EDelay => by_num (delay x) (delay y) (size (by_num (area x) (area y) (by_num (edge x) (edge y)
                (by_num (power x) (power y) (by_nat (useless x) (useless y) false)))))
  | EDelay2 => by_num (delay x) (delay y) (by_nat (useless x) (useless y) (by_num (area x) (area y)
                 (by_num (edge x) (edge y) (by_num (power x) (power y) (length (lvs a) <? length (lvs b))))))
  | EArea => by_num (area x) (area y) (by_num (edge x) (edge y) (by_num (power x) (power y)
               (by_num (delay x) (delay y) (size (by_nat (useless x) (useless y) false)))))
  end.

(* klut_mapping.hpp:46-77 and the members of network_cuts *)
Record kst := KSt {
  sets : list (cutset gdata);   (* _cut_network.cuts *)
  best : list gcut;             (* _cut_network.get_best_cut *)
  tts : cache;                  (* _cut_network._truth_tables *)
  arrival : nat -> fl;
  require : nat -> fl;
  est : nat -> fl;
  refs : nat -> nat
}.
Definition set_sets x (t : kst) := KSt x (best t) (tts t) (arrival t) (require t) (est t) (refs t).
Definition set_best x (t : kst) := KSt (sets t) x (tts t) (arrival t) (require t) (est t) (refs t).
Definition set_tts x (t : kst) := KSt (sets t) (best t) x (arrival t) (require t) (est t) (refs t).
Definition set_arrival x (t : kst) := KSt (sets t) (best t) (tts t) x (require t) (est t) (refs t).
Definition set_require x (t : kst) := KSt (sets t) (best t) (tts t) (arrival t) x (est t) (refs t).
Definition set_est x (t : kst) := KSt (sets t) (best t) (tts t) (arrival t) (require t) x (refs t).
Definition set_refs x (t : kst) := KSt (sets t) (best t) (tts t) (arrival t) (require t) (est t) x.

Definition K := M kst.
Definition modify (f : kst -> kst) : K unit := fun t => Some (Datatypes.tt, f t).
Definition get_set (n : nat) : K (cutset gdata) := fun t => c ← sets t !! n; Some (c, t).
Definition put_set (n : nat) (c : cutset gdata) : K unit := modify (fun t => set_sets (<[n := c]> (sets t)) t).
Definition get_best (n : nat) : K gcut := fun t => c ← best t !! n; Some (c, t).
Definition set_ref (n x : nat) : K unit := modify (fun t => set_refs (Mapping.upd n x (refs t)) t).

Variable c : cnet.
Variable cap max : nat. (* max_cut_size = 7, max_cut_num = 12 *)
(* the order of the stale cuts after clear(), which resets the pointers of a set
   (cut_set.hpp:49-57): a permutation *)
Variable stale : list gcut -> list gcut.
Notation s := (cb c).
Definition kfuel : nat := 2 * size s + 2.

(* klut_mapping.hpp:153-159, 46-60 and cut_enumeration.hpp:162-171 *)
Definition kst_init : kst :=
  KSt (repeat (cs_new max g0) (size s)) (repeat (Cut [] 0 0 g0) (size s)) (st_init g0 max 0).2
    (fun _ => fsub A (f0 A) (f1 A)) (fun _ => fbig A) (fun _ => f0 A) (fun _ => 0).

(* cut_enumeration.hpp:243-252 add_unit_cut *)
Definition unit_cut (n : nat) : K unit := fun t =>
  '(_, x) ← add_unit_cut true cap n (sets t, tts t);
  Some (Datatypes.tt, set_sets x.1 t).

(* set_best_cut(n, cuts(n).best()) *)
Definition best_of_set (n : nat) : K gcut := let! cs := get_set n in lift (arr cs !! 0).
Definition choose (n : nat) (x : gcut) : K unit :=
  let! _ := get_best n in modify (fun t => set_best (<[n := x]> (best t)) t).

(* klut_mapping.hpp:198-212: constant and inputs *)
Definition init_leaf (n : nat) : K unit :=
  unit_cut n ;;;
  let! x := best_of_set n in
  choose n x ;;;
  modify (fun t => set_arrival (Mapping.upd n (f0 A) (arrival t))
            (set_est (Mapping.upd n (f1 A) (est t)) (set_refs (Mapping.upd n 1 (refs t)) t))).

(* klut_mapping.hpp:950-968: visited nodes and the filled part of topo_order *)
Fixpoint dfs_topo (fuel : nat) (n : nat) : M (list nat * list nat) unit := fun x =>
  match fuel with
  | O => None
  | S fuel' =>
      k ← ks s !! n;
      if decide (n ∈ x.1) then Some (Datatypes.tt, x)
      else
        e ← equivs c !! n;
        (match e with None => ret Datatypes.tt | Some m => dfs_topo fuel' m end ;;;
         (fun x => Some (Datatypes.tt, (n :: x.1, x.2))) ;;;
         dfs_topo fuel' (sidx k.1) ;;;
         dfs_topo fuel' (sidx k.2) ;;;
         (fun x => if decide (length x.2 < size s) then Some (Datatypes.tt, (x.1, x.2 ++ [n])) else None)) x
  end.
(* klut_mapping.hpp:932-945 topologize *)
Definition topologize : option (list nat) :=
  '(_, x) ← mapM (fun f => dfs_topo kfuel (sidx f)) (outs s) ([0], []);
  Some (x.2 ++ repeat 0 (size s - length x.2)).

(* klut_mapping.hpp:970-973 *)
Definition clear_refs : K unit := modify (set_refs (fun _ => 0)).
(* klut_mapping.hpp:975-991; inputs store their position in their children *)
Definition reset_refs : K unit :=
  clear_refs ;;;
  mapM (fun n =>
    let! d := lift (is_dead s n) in
    if d : bool then ret Datatypes.tt else
    let! k := lift (ks s !! n) in
    modify (fun t => set_refs (Mapping.upd (sidx k.1) (S (refs t (sidx k.1))) (refs t)) t) ;;;
    modify (fun t => set_refs (Mapping.upd (sidx k.2) (S (refs t (sidx k.2))) (refs t)) t))
    (seq 0 (size s)) ;;;
  mapM (fun f => modify (fun t => set_refs (Mapping.upd (sidx f) (S (refs t (sidx f))) (refs t)) t)) (pos s) ;;;
  ret Datatypes.tt.

(* is_ci(n) || is_constant(n), is_pi(n) || is_constant(n) *)
Definition is_source (n : nat) : K bool := let! ci := lift (is_ci s n) in ret (ci || bool_decide (n = 0)).
Definition is_stop (n : nat) : K bool := let! pi := lift (is_pi s n) in ret (pi || bool_decide (n = 0)).

(* klut_mapping.hpp:632-656, 680-705: [w] is the weight of a cut, 1 for areas and
   the number of leaves for edges *)
Fixpoint cut_deref (w : gcut -> fl) (fuel : nat) (x : gcut) : K fl :=
  match fuel with
  | O => fail
  | S fuel' =>
      foldM (fun a l =>
        let! t := get in
        if decide (refs t l = 0) then fail (* assert *)
        else
          set_ref l (refs t l - 1) ;;;
          let! p := is_stop l in
          if bool_decide (0 < refs t l - 1) || p then ret a
          else let! y := get_best l in let! b := cut_deref w fuel' y in ret (fadd A a b)) (w x) (lvs x)
  end.
Fixpoint cut_ref (w : gcut -> fl) (fuel : nat) (x : gcut) : K fl :=
  match fuel with
  | O => fail
  | S fuel' =>
      foldM (fun a l =>
        let! t := get in
        set_ref l (S (refs t l)) ;;;
        let! p := is_stop l in
        if bool_decide (0 < refs t l) || p then ret a
        else let! y := get_best l in let! b := cut_ref w fuel' y in ret (fadd A a b)) (w x) (lvs x)
  end.
Definition area_weight (x : gcut) : fl := f1 A.
Definition edge_weight (x : gcut) : fl := fof A (length (lvs x)).
(* klut_mapping.hpp:658-665, 708-718 *)
Definition cut_derefed (w : gcut -> fl) (x : gcut) : K fl :=
  if decide (length (lvs x) < 2) then ret (f0 A)
  else
    let! r1 := cut_ref w kfuel x in
    let! r2 := cut_deref w kfuel x in
    if fnear r1 r2 then ret r2 else fail.

(* klut_mapping.hpp:734-796: [g] is the area or the edge of the best cut *)
Definition cut_flow (w : gcut -> fl) (g : gdata -> fl) (x : gcut) : K fl :=
  foldM (fun a l =>
    let! y := get_best l in
    let! t := get in
    let! b := if decide (refs t l = 0 \/ l = 0) then ret (g (dat y))
              else if flt A (feps A) (est t l) then ret (fdiv A (g (dat y)) (est t l)) else fail (* assert *) in
    if fle (fcap A) a || fle (fcap A) b then ret (fcap A)
    else let a' := fadd A a b in ret (if fle (fcap A) a' then fcap A else a')) (w x) (lvs x).

(* klut_mapping.hpp:619-629 *)
Definition cut_delay (x : gcut) : K fl :=
  let! d := foldM (fun d l => let! y := get_best l in ret (fmax d (delay (dat y)))) (fsub A (f0 A) (f1 A)) (lvs x) in
  ret (fadd A d (f1 A)).

(* klut_mapping.hpp:855-866; [am]: ETM_AREA *)
Definition cut_cost (am : bool) (x : gcut) : K gcut :=
  let! a := if am then cut_derefed area_weight x else cut_flow area_weight area x in
  let! e := if am then cut_derefed edge_weight x else cut_flow edge_weight edge x in
  let! d := cut_delay x in
  ret (Cut (lvs x) (sg x) (fid x) (GData d a e (power (dat x)) (useless (dat x)))).

Definition insert_cut (e : etc) (n : nat) (x : gcut) : K unit :=
  let! cs := get_set n in
  let! cs' := lift (cs_insert (glt e) cap x cs) in
  put_set n cs'.

(* klut_mapping.hpp:835-868: one pair of cuts; nc is new_cut *)
Definition kmerge_pair (ps : cut_ps) (e : etc) (am : bool) (n : nat) (c1 c2 nc : gcut) : K gcut :=
  let! r := lift (merge cap c1 c2 nc (cut_size ps)) in
  match r with
  | None => ret nc
  | Some nc1 =>
      let! rcuts := get_set n in
      if is_dominated rcuts nc1 then ret nc1
      else
        let! t := get in
        let! r := lift (compute_truth_table cap s ps n c1 c2 nc1 (tts t)) in
        modify (set_tts r.2) ;;;
        let! nc3 := cut_cost am r.1 in
        insert_cut e n nc3 ;;;
        ret nc3
  end.

(* cut_limit - 1 in uint32_t *)
Definition limit_arg (ps : cut_ps) : N := ((cut_limit ps + 2 ^ 32 - 1) mod 2 ^ 32)%N.
Definition limit_set (ps : cut_ps) (n : nat) : K unit :=
  let! cs := get_set n in
  let! cs' := lift (limit (limit_arg ps) cs) in
  put_set n cs'.

(* klut_mapping.hpp:800-881 merge_cuts *)
Definition merge_cuts (ps : cut_ps) (e : etc) (am : bool) (n : nat) : K unit :=
  let! k := lift (ks s !! n) in
  let! rcuts := get_set n in
  put_set n (CS (stale (arr rcuts)) 0 0) ;;;
  let! b0 := get_best (sidx k.1) in
  insert_cut e (sidx k.1) b0 ;;;
  let! b1 := get_best (sidx k.2) in
  insert_cut e (sidx k.2) b1 ;;;
  let! lcuts0 := get_set (sidx k.1) in
  let! lcuts1 := get_set (sidx k.2) in
  foldM (fun nc c1 => foldM (fun nc c2 => kmerge_pair ps e am n c1 c2 nc) nc (vis lcuts1))
    (Cut [] 0 0 g0) (vis lcuts0) ;;;
  limit_set ps n ;;;
  let! rcuts := get_set n in
  let! first := lift (arr rcuts !! 0) in
  if decide (1 < cn rcuts \/ 1 < length (lvs first)) then unit_cut n else ret Datatypes.tt.

(* the test of klut_mapping.hpp:352-353 and 418-419 *)
Definition in_time (zg : bool) (x : gcut) (n : nat) (t : kst) : bool :=
  flt A (delay (dat x)) (fadd A (require t n) (feps A)) ||
  (zg && feq A (delay (dat x)) (fadd A (require t n) (feps A))).
Definition take_best (n : nat) (x : gcut) : K unit :=
  choose n x ;;; modify (fun t => set_arrival (Mapping.upd n (delay (dat x)) (arrival t)) t).

(* klut_mapping.hpp:326-329, 362-365 (and 381-384, 430-433): recount the best cut *)
Definition recount (f : nat -> gcut -> K fl) (mode n : nat) : K unit :=
  let! t := get in
  if decide (mode <> 0 /\ 0 < refs t n) then
    let! x := get_best n in f kfuel x ;;; ret Datatypes.tt
  else ret Datatypes.tt.

(* klut_mapping.hpp:327-367 perform_mapping_and *)
Definition mapping_and (p : kparams) (e : etc) (mode n : nat) : K unit :=
  modify (fun t => match mode with
    | 0 => set_est (Mapping.upd n (fof A (refs t n)) (est t)) t
    | 1 => set_est (Mapping.upd n (fdiv A (fadd A (fof A (refs t n)) (fmul A (fof A 2) (est t n))) (fof A 3)) (est t)) t
    | _ => t
    end) ;;;
  recount (cut_deref area_weight) mode n ;;;
  merge_cuts (kcut p) e (bool_decide (mode = 2)) n ;;;
  let! x := best_of_set n in
  let! t := get in
  (if bool_decide (length (lvs x) < 1) || in_time (kZeroGain p) x n t then take_best n x else ret Datatypes.tt) ;;;
  recount (cut_ref area_weight) mode n.

(* klut_mapping.hpp:390-413: the members of the class after n; ETC_DELAY is 1 *)
Definition flip (b : bool) (x : gcut) : gcut :=
  if b then Cut (lvs x) (sg x) (N.lxor (fid x) 1) (dat x) else x.
Definition choice_cut (e : etc) (mode n m : nat) (ph : bool) (x : gcut) : K unit :=
  let! t := get in
  if decide (length (lvs x) < 2) then ret Datatypes.tt
  else if bool_decide (mode <> 1) && flt A (fadd A (require t m) (feps A)) (delay (dat x)) then ret Datatypes.tt
  else insert_cut e n (flip ph x).
Fixpoint choice_cuts (fuel : nat) (ps : cut_ps) (e : etc) (mode n : nat) (m : option nat) : K unit :=
  match fuel with
  | O => fail
  | S fuel' =>
      match m with
      | None => ret Datatypes.tt
      | Some m =>
          let! cs := get_set m in
          let! e' := lift (get_equiv_node c m) in
          if decide (cn cs = 0) then choice_cuts fuel' ps e mode n e'
          else
            let! pn := lift (ph s !! n) in
            let! pm := lift (ph s !! m) in
            mapM (choice_cut e mode n m (xorb pn pm)) (vis cs) ;;;
            limit_set ps n ;;;
            choice_cuts fuel' ps e mode n e'
      end
  end.
(* klut_mapping.hpp:377-436 perform_mapping_and_choice *)
Definition mapping_choice (p : kparams) (e : etc) (mode n : nat) : K unit :=
  recount (cut_deref area_weight) mode n ;;;
  let! m := lift (get_equiv_node c n) in
  choice_cuts (S (size s)) (kcut p) e mode n m ;;;
  let! x := best_of_set n in
  let! t := get in
  (if in_time (kZeroGain p) x n t then take_best n x else ret Datatypes.tt) ;;;
  unit_cut n ;;;
  recount (cut_ref area_weight) mode n.

(* klut_mapping.hpp:554-571 mark_current_mapping_rec, without the area *)
Fixpoint mark_current (fuel : nat) (n : nat) : K unit :=
  match fuel with
  | O => fail
  | S fuel' =>
      let! t := get in
      set_ref n (S (refs t n)) ;;;
      let! p := is_source n in
      if bool_decide (0 < refs t n) || p then ret Datatypes.tt
      else let! x := get_best n in mapM (mark_current fuel') (lvs x) ;;; ret Datatypes.tt
  end.

(* klut_mapping.hpp:539-545: the members of the class get n's required time *)
Fixpoint require_class (fuel : nat) (n : nat) (m : option nat) : K unit :=
  match fuel with
  | O => fail
  | S fuel' =>
      match m with
      | None => ret Datatypes.tt
      | Some m =>
          modify (fun t => set_require (Mapping.upd m (require t n) (require t)) t) ;;;
          let! e := lift (get_equiv_node c m) in
          require_class fuel' n e
      end
  end.
(* klut_mapping.hpp:520-546 *)
Definition require_node (n : nat) : K unit :=
  let! p := is_source n in
  let! t := get in
  if p || bool_decide (refs t n = 0) then ret Datatypes.tt
  else
    let! x := get_best n in
    mapM (fun l => modify (fun u => set_require (Mapping.upd l (fmin (require u l) (fsub A (require t n) (f1 A))) (require u)) u)) (lvs x) ;;;
    let! m := lift (get_equiv_node c n) in
    require_class (S (size s)) n m.
(* klut_mapping.hpp:483-548 compute_required_times; [ba] is bArea *)
Definition required_times (ba : bool) (order : list nat) : K unit :=
  modify (set_require (fun _ => fbig A)) ;;;
  clear_refs ;;;
  let! g := foldM (fun g f =>
    mark_current kfuel (sidx f) ;;;
    let! t := get in ret (if flt A g (arrival t (sidx f)) then arrival t (sidx f) else g)) (f0 A) (outs s) in
  mapM (fun f => modify (fun t => set_require (Mapping.upd (sidx f) g (require t)) t)) (outs s) ;;;
  if ba then ret Datatypes.tt else mapM require_node (rev order) ;;; ret Datatypes.tt.

(* klut_mapping.hpp:300-313 *)
Definition round_node (p : kparams) (e : etc) (mode n : nat) : K unit :=
  let! q := is_source n in
  if q : bool then ret Datatypes.tt
  else
    mapping_and p e mode n ;;;
    let! r := lift (is_repr c n) in
    if r : bool then mapping_choice p e mode n else ret Datatypes.tt.
(* klut_mapping.hpp:265-324 perform_mapping_round; [ba], [bf] are the current
   values of bArea and bFancy *)
Definition round (p : kparams) (order : list nat) (ba bf : bool) (mode : nat) : K unit :=
  let e := if bool_decide (mode <> 0) || ba then EArea else if bf : bool then EDelay2 else EDelay in
  mapM (round_node p e mode) order ;;;
  required_times ba order.

(* klut_mapping.hpp:578-590 mark_ref_rec *)
Fixpoint mark_ref (fuel : nat) (n : nat) : K unit :=
  match fuel with
  | O => fail
  | S fuel' =>
      let! t := get in
      set_ref n (S (refs t n)) ;;;
      let! p := is_source n in
      if bool_decide (0 < refs t n) || p then ret Datatypes.tt
      else
        set_ref n (S (S (refs t n))) ;;;
        let! x := get_best n in mapM (mark_ref fuel') (lvs x) ;;; ret Datatypes.tt
  end.

(* klut_mapping.hpp:608-634 *)
Definition derive_node (t : kst) (m : mview) (n : nat) : option mview :=
  ci ← is_ci s n;
  if bool_decide (refs t n = 0) || ci || bool_decide (n = 0) then Some m
  else
    x ← best t !! n;
    if decide (1 < length (lvs x)) then
      m1 ← add_to_mapping n (lvs x) m;
      f ← cache_get (fid x) (tts t);
      set_cell_function n f m1
    else None. (* assert *)
(* klut_mapping.hpp:596-638 derive_final_mapping *)
Definition derive_final (order : list nat) (m : mview) (t : kst) : option mview :=
  '(_, u) ← (clear_refs ;;; mapM (fun f => mark_ref kfuel (sidx f)) (pos s)) t;
  fold_opt (derive_node u) m (rev order).

(* klut_mapping.hpp:194-255, up to derive_final_mapping *)
Definition rounds (p : kparams) (order : list nat) : K unit :=
  (if kPreprocess p && negb (kArea p) then
     round p order (kArea p) (kFancy p) 0 ;;;
     reset_refs ;;; round p order (kArea p) true 0 ;;;
     reset_refs ;;; round p order true false 0 ;;;
     mapM (round p order false false) (repeat 1 (kFlowIters p)) ;;;
     mapM (round p order false false) (repeat 2 (kAreaIters p))
   else
     round p order (kArea p) (kFancy p) 0 ;;;
     mapM (round p order (kArea p) (kFancy p)) (repeat 1 (kFlowIters p)) ;;;
     mapM (round p order (kArea p) (kFancy p)) (repeat 2 (kAreaIters p))) ;;;
  ret Datatypes.tt.
(* klut_mapping.hpp:148-163 run; the mapping view starts without cells *)
Definition map_rounds (p : kparams) : option (list nat * kst) :=
  '(_, t) ← mapM init_leaf (0 :: ins s) kst_init;
  order ← topologize;
  '(_, t) ← rounds (init_parameters p) order t;
  Some (order, t).
Definition klut_mapping (p : kparams) : option mview :=
  '(order, t) ← map_rounds p;
  derive_final order (mv_init (size s)) t.
End klut.
