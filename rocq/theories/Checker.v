(* Model of the mapping checker,
   include/operations/algorithms/detail/checker_4_mapped_graph.hpp
   (debug_mapped_aig_by_origin of debugger.hpp).

   The solver is an arbitrary function of the clauses; the asserted results of
   add_clause are taken to be true, SAT variables are unbounded, and messages and
   the dot file are left out. *)
From Verif Require Import Base Aig AigSem Topo Clean Tt TtCache Klut KlutSem Isop Cnf Choice Mapping.

(* lines 789-800: _sat_vars_map, _current_sat_var and the clauses of the solver *)
Record chk := Chk { k_vars : list nat; k_next : nat; k_cls : list (list N) }.
Definition csolver := list (list N) -> answer.
Inductive verdict := Same | Differs | Unknown.

(* lines 184-191 recycle_sat: node 0 has variable 1, no other node has one *)
Definition recycled (s : aig) : chk := Chk (<[0 := 1]> (repeat 0 (size s))) 2 [].
(* lines 295-326 prepare_node_for_sat; _constant_max_sat_var is 1 *)
Definition prepare (n : nat) : M chk nat := fun k =>
  v ← k_vars k !! n;
  if decide (v <= 1) then Some (k_next k, Chk (<[n := k_next k]> (k_vars k)) (S (k_next k)) (k_cls k)) else Some (v, k).
Definition fresh_var : M chk nat := fun k => Some (k_next k, Chk (k_vars k) (S (k_next k)) (k_cls k)).
Definition add_clauses (cls : list (list N)) : M chk unit := fun k => Some (Datatypes.tt, Chk (k_vars k) (k_next k) (k_cls k ++ cls)).

(* lines 210-221 collect_choices: the members of the classes of the
   representatives, with their representatives; the last entry counts *)
Fixpoint chain (fuel : nat) (c : cnet) (o : option nat) : option (list nat) :=
  match o with
  | None => Some []
  | Some n => match fuel with O => None | S fuel' => e ← get_equiv_node c n; l ← chain fuel' c e; Some (n :: l) end
  end.
Definition members (c : cnet) (n : nat) : option (list nat) :=
  r ← is_repr c n;
  if r : bool then e ← get_equiv_node c n; chain (size (cb c)) c e else Some [].
Definition choices (c : cnet) : option (list (nat * nat)) :=
  gs ← gates (cb c);
  ls ← opt_map (fun n => l ← members c n; Some (map (fun e => (e, n)) l)) gs;
  Some (concat ls).
Definition repr_of (rs : list (nat * nat)) (n : nat) : option nat :=
  match last (filter (fun p => p.1 = n) rs) with Some p => Some p.2 | None => None end.

(* foreach_fanin *)
Definition fans (s : aig) (n : nat) : option (list signal) :=
  k ← ks s !! n; Some (if decide (n = 0 \/ k.1 = k.2) then [] else [k.1; k.2]).
(* lines 230-270 collect_limited_fanin_cone_nodes *)
Fixpoint collect (fuel : nat) (c : cnet) (limit : nat) (seen queue : list nat) : option (list nat) :=
  match queue with
  | [] => Some seen
  | n :: q =>
      match fuel with
      | O => None
      | S fuel' =>
          if decide (n ∈ seen) then collect fuel' c limit seen q
          else
            es ← members c n;
            fs ← fans (cb c) n;
            let fs := map sidx fs in
            collect fuel' c limit (n :: seen) (q ++ es ++ if forallb (fun m => limit <=? m) fs then fs else [])
      end
  end.
Definition cone_fuel (s : aig) : nat := 1 + size s * (2 + size s).
Definition cone (c : cnet) (root limit : nat) : option (list nat) :=
  seen ← collect (cone_fuel (cb c)) c limit [] [root];
  Some (filter (fun n => n ∈ seen) (seq 0 (size (cb c)))). (* a std::set *)

(* lines 336-380 add_cell_func_to_solver *)
Definition add_cell_func (f : tt) (leaves : list nat) : M chk nat :=
  let! r := fresh_var in
  let! vs := mapM prepare leaves in
  let! cls := lift (if decide (nv f <= length vs) then on_function (make_lit r false) (map (fun v => make_lit v false) (take (nv f) vs)) f else None) in
  add_clauses cls ;;; ret r.
(* lines 445-475 *)
Definition add_and2 (n : nat) (a b : signal) : M chk unit :=
  let! v := prepare n in
  let! va := prepare (sidx a) in
  let! vb := prepare (sidx b) in
  add_clauses (on_and (make_lit v false) (make_lit va (scompl a)) (make_lit vb (scompl b))).
(* lines 483-523; the variable of the dummy node *)
Definition add_compl_equal (v1 v2 : nat) : M chk unit :=
  let! _ := fresh_var in add_clauses [[make_lit v1 false; make_lit v2 false]; [make_lit v1 true; make_lit v2 true]].
Definition add_equal (v1 v2 : nat) : M chk unit :=
  let! _ := fresh_var in add_clauses [[make_lit v1 true; make_lit v2 false]; [make_lit v1 false; make_lit v2 true]].
(* lines 401-431: one node of the cone.  Only gates and register outputs get here;
   the fanins of the latter are the default signal. *)
Definition add_node (c : cnet) (rs : list (nat * nat)) (n : nat) : M chk unit :=
  let! pi := lift (is_pi (cb c) n) in
  if decide (pi = true \/ n = 0) then ret Datatypes.tt
  else
    let! fs := lift (fans (cb c) n) in
    let '(a, b) := match fs with [a; b] => (a, b) | _ => (Sig 0 false, Sig 0 false) end in
    add_and2 n a b ;;;
    match repr_of rs n with
    | None => ret Datatypes.tt
    | Some r =>
        let! p := lift (ph (cb c) !! n) in
        let! q := lift (ph (cb c) !! r) in
        let! vn := prepare n in
        let! vr := prepare r in
        if xorb p q then add_compl_equal vn vr else add_equal vn vr
    end.
(* lines 391-435 add_cell_cone_to_solver *)
Definition add_cell_cone (c : cnet) (rs : list (nat * nat)) (root : nat) (leaves : list nat) : M chk nat :=
  let! v := prepare root in
  let! _ := mapM prepare leaves in
  let! limit := lift (match leaves with [] => None | l :: r => Some (foldr Nat.min l r) end) in
  let! ns := lift (cone c root limit) in
  let! _ := mapM (add_node c rs) ns in
  ret v.

(* lines 530-570 is_equal_cell *)
Definition cell_m (c : cnet) (rs : list (nat * nat)) (m : mview) (root : nat) : M chk unit :=
  let! f := lift (cell_function m root) in
  let! leaves := lift (cell_fanin m root) in
  let! _ := mapM prepare leaves in
  let! gold := add_cell_func f leaves in
  let! gate := add_cell_cone c rs root leaves in
  add_compl_equal gold gate.
Definition answer_of (a : answer) : verdict := match a with Failure => Same | Success _ => Differs | Timeout => Unknown end.
Definition is_equal_cell (c : cnet) (rs : list (nat * nat)) (m : mview) (solve : csolver) (root : nat) : option verdict :=
  '(_, k) ← cell_m c rs m root (recycled (cb c));
  Some (answer_of (solve (k_cls k))).

(* lines 578-633 is_equal_root: the cells below a root, from a queue without marks *)
Fixpoint root_loop (fuel : nat) (c : cnet) (rs : list (nat * nat)) (m : mview) (queue : list nat) : M chk unit :=
  match queue with
  | [] => ret Datatypes.tt
  | n :: q =>
      match fuel with
      | O => fail
      | S fuel' =>
          let! pi := lift (is_pi (cb c) n) in
          if decide (pi = true \/ n = 0) then root_loop fuel' c rs m q
          else
            let! r := lift (is_cell_root m n) in
            if r : bool then
              let! f := lift (cell_function m n) in
              let! leaves := lift (cell_fanin m n) in
              let! _ := mapM prepare leaves in
              let! gate := add_cell_cone c rs n leaves in
              let! gold := add_cell_func f leaves in
              add_compl_equal gate gold ;;;
              root_loop fuel' c rs m (q ++ leaves)
            else fail
      end
  end.
Definition is_equal_root (fuel : nat) (c : cnet) (rs : list (nat * nat)) (m : mview) (solve : csolver) (root : nat) : option verdict :=
  r ← is_cell_root m root;
  if r : bool then
    '(_, k) ← (let! _ := mapM prepare (pis (cb c)) in root_loop fuel c rs m [root]) (recycled (cb c));
    Some (answer_of (solve (k_cls k)))
  else None.

(* the first node for which a check says Differs; timeouts are passed over *)
Fixpoint first_differing (chk : nat -> option (option verdict)) (l : list nat) : option (option nat) :=
  match l with
  | [] => Some None
  | n :: r => v ← chk n; match v with Some Differs => Some (Some n) | _ => first_differing chk r end
  end.
(* lines 93-126 check_each_luts *)
Definition check_each_luts (c : cnet) (rs : list (nat * nat)) (m : mview) (solve : csolver) : option (option nat) :=
  gs ← gates (cb c);
  first_differing (fun n => r ← is_cell_root m n; if r : bool then v ← is_equal_cell c rs m solve n; Some (Some v) else Some None) gs.
(* lines 134-160 check_each_po *)
Definition check_each_po (fuel : nat) (c : cnet) (rs : list (nat * nat)) (m : mview) (solve : csolver) : option (option nat) :=
  first_differing (fun n => pi ← is_pi (cb c) n;
    if decide (pi = true \/ n = 0) then Some None else v ← is_equal_root fuel c rs m solve n; Some (Some v)) (map sidx (pos (cb c))).
(* lines 640-670 check_signal_incrementally *)
Definition check_incrementally (fuel : nat) (c : cnet) (rs : list (nat * nat)) (m : mview) (solve : csolver) (n : nat) : option bool :=
  gs ← gates (cb c);
  o ← first_differing (fun i => r ← is_cell_root m i;
    if r && (i <=? n) then v ← is_equal_root fuel c rs m solve i; Some (Some v) else Some None) gs;
  Some (match o with None => true | Some _ => false end).
(* lines 64-86 run; the assertion of line 81 *)
Definition checker_run (fuel : nat) (c : cnet) (m : mview) (solve : csolver) : option bool :=
  rs ← choices c;
  e1 ← check_each_luts c rs m solve;
  e2 ← check_each_po fuel c rs m solve;
  match e2 with
  | None => Some (match e1 with None => true | Some _ => false end)
  | Some n => e ← check_incrementally fuel c rs m solve n; if e : bool then None else Some false
  end.

(* ---- specification ---- *)
Definition correct_csolver (solve : csolver) : Prop :=
  (forall cls m, solve cls = Success m -> cnf_sat (fun i => nth i m false) cls) /\
  (forall cls, solve cls = Failure -> forall x, ~ cnf_sat x cls).
(* the LUT of a cell gives the value of its root *)
Definition right_cell (s : aig) (m : mview) (n : nat) : Prop := exists l f, cell_fanin m n = Some l /\ cell_function m n = Some f /\
  forall env v, valuation s env v -> v n = tt_eval f (fun k => match l !! k with Some c => v c | None => false end).
(* the nodes from a root down to the leaves of a cell, leaves included *)
Inductive inside (s : aig) (l : list nat) (r : nat) : nat -> Prop :=
  | inside_root : inside s l r r
  | inside_left n a b : inside s l r n -> n ∉ l -> ks s !! n = Some (a, b) -> inside s l r (sidx a)
  | inside_right n a b : inside s l r n -> n ∉ l -> ks s !! n = Some (a, b) -> inside s l r (sidx b).
(* the leaves are a cut of the root, and the LUT is the function of the gates in between *)
Definition exact_cell (s : aig) (m : mview) (r : nat) : Prop := exists l f, cell_fanin m r = Some l /\ cell_function m r = Some f /\ tt_wf f /\ nv f = length l /\
  (forall n, inside s l r n -> n ∉ l -> is_gate s n) /\
  forall v, (forall n a b, inside s l r n -> n ∉ l -> ks s !! n = Some (a, b) -> v n = sval v a && sval v b) ->
    v r = tt_eval f (fun k => match l !! k with Some c => v c | None => false end).
