(* Model of class sat_prover, include/operations/algorithms/choice_computation.hpp:
   365-781.

   The solver is an oracle: [solve k cls assumptions] is its answer to the k-th
   query, any function of the clauses added since the last restart.  The return
   values of add_clause (asserted to be 1) and propaget_unit_clauses are not
   modelled: the clauses given to the solver are always satisfiable, as proved
   below.  Variables and counters are not truncated to 32 bits. *)
From Verif Require Import Base Aig AigSem Cnf Choice.

(* choice_params (choice_computation.hpp:34-41) as used by the prover, and the
   number of variables set_nr_vars creates in advance (lines 389, 518: 1000) *)
Record sparams := Sparams { polar_flip : bool; max_sat_var : nat; calls_recycle : nat; init_vars : nat }.

Record prover := Prover {
  svar : nat;               (* _sat_vars *)
  smap : list nat;          (* _sat_vars_map *)
  sused : list nat;         (* _used_nodes *)
  scls : list (list N);     (* clauses of the solver *)
  scalls : nat;             (* _calls_since *)
  sq : nat                  (* queries answered so far *)
}.
Definition oracle := nat -> list (list N) -> list N -> answer.

Definition add_cls (cls : list (list N)) : M prover unit := fun p =>
  Some (tt, Prover (svar p) (smap p) (sused p) (scls p ++ cls) (scalls p) (sq p)).

(* choice_computation.hpp:375-389: constructor *)
Definition prover_init (sz : nat) : option prover :=
  _ ← repeat 0 sz !! 0;
  Some (Prover 2 (<[0 := 1]> (repeat 0 sz)) [] [[make_lit 1 true]] 0 0).

(* choice_computation.hpp:496-530 recycle_sat_solver *)
Fixpoint reset_vars (l : list nat) (m : list nat) : option (list nat) :=
  match l with
  | [] => Some m
  | n :: r => _ ← m !! n; reset_vars r (<[n := 0]> m)
  end.
Definition recycle : M prover unit := fun p =>
  m ← reset_vars (sused p) (smap p);
  _ ← m !! 0;
  Some (tt, Prover 2 (<[0 := 1]> m) [] [[make_lit 1 true]] 0 (sq p)).

Section prover.
Variable ps : sparams.
Variable s : aig.

(* choice_computation.hpp:576-586 add_to_frontier *)
Definition add_to_frontier (n : nat) (fr : list nat) : M prover (list nat) := fun p =>
  v ← smap p !! n;
  if decide (v <> 0) then Some (fr, p)
  else if decide (n = 0) then Some (fr, p)
  else
    a ← is_and s n;
    Some (if a : bool then fr ++ [n] else fr,
          Prover (S (svar p)) (<[n := svar p]> (smap p)) (sused p ++ [n]) (scls p) (scalls p) (sq p)).

(* a literal of node n, with the polarity adjustment repeated at every use:
   make_lit(map[n], c), negated if polar_flip and phase(n) *)
Definition node_lit (n : nat) (c : bool) (p : prover) : option N :=
  v ← smap p !! n;
  b ← ph s !! n;
  Some (lit_not_cond (make_lit v c) (polar_flip ps && b)).

(* choice_computation.hpp:592-683 add_clauses_mux *)
Definition add_clauses_mux (n : nat) : M prover unit := fun p =>
  '(i, t, e) ← recognize_mux s n;
  vt ← smap p !! sidx t;
  ve ← smap p !! sidx e;
  i0 ← node_lit (sidx i) false p; i1 ← node_lit (sidx i) true p;
  t0 ← node_lit (sidx t) (scompl t) p; t1 ← node_lit (sidx t) (negb (scompl t)) p;
  e0 ← node_lit (sidx e) (scompl e) p; e1 ← node_lit (sidx e) (negb (scompl e)) p;
  f0 ← node_lit n false p; f1 ← node_lit n true p;
  add_cls ([[i1; t1; f0]; [i1; t0; f1]; [i0; e1; f0]; [i0; e0; f1]] ++
           (if decide (vt = ve) then [] else [[t0; e0; f1]; [t1; e1; f0]])) p.

(* choice_computation.hpp:712-720 vector_push_unique *)
Definition push_unique (l : list signal) (f : signal) : list signal :=
  if decide (f ∈ l) then l else l ++ [f].

(* choice_computation.hpp:691-706 collect_super *)
Fixpoint collect_super (fuel : nat) (f : signal) (fanins : list signal) (first : bool) : option (list signal) :=
  match fuel with
  | O => None
  | S fuel' =>
      if scompl f then Some (push_unique fanins f)
      else
        ci ← is_ci s (sidx f);
        if ci : bool then Some (push_unique fanins f)
        else
          fs ← fanout_size s (sidx f);
          if negb first && bool_decide (1 < fs)%N then Some (push_unique fanins f)
          else
            m ← is_mux s (sidx f);
            if m : bool then Some (push_unique fanins f)
            else
              k ← ks s !! sidx f;
              l ← collect_super fuel' k.1 fanins false;
              collect_super fuel' k.2 l false
  end.

(* choice_computation.hpp:727-763 add_clauses_super *)
Definition add_clauses_super (n : nat) (fanins : list signal) : M prover unit := fun p =>
  a ← is_and s n;
  if negb a then None
  else
    f0 ← node_lit n false p;
    f1 ← node_lit n true p;
    ls ← opt_map (fun g => node_lit (sidx g) (scompl g) p) fanins;
    ls' ← opt_map (fun g => node_lit (sidx g) (negb (scompl g)) p) fanins;
    add_cls (map (fun l => [l; f1]) ls ++ [ls' ++ [f0]]) p.

(* choice_computation.hpp:547-570: one node of the frontier *)
Definition encode_node (n : nat) (fr : list nat) : M prover (list nat) := fun p =>
  v ← smap p !! n;
  if decide (v = 0) then None (* assertion *)
  else
    m ← is_mux s n;
    if m : bool then
      k ← ks s !! n;
      k0 ← ks s !! sidx k.1;
      k1 ← ks s !! sidx k.2;
      let fanins := push_unique (push_unique (push_unique (push_unique [] (spos k0.1)) (spos k1.1)) (spos k0.2)) (spos k1.2) in
      (let! fr' := foldM (fun fr g => add_to_frontier (sidx g) fr) fr fanins in
       add_clauses_mux n ;;;
       ret fr') p
    else
      ci ← is_ci s n;
      if ci : bool then None (* assertion *)
      else
        fanins ← collect_super (S (size s)) (Sig n false) [] true;
        (let! fr' := foldM (fun fr g => add_to_frontier (sidx g) fr) fr fanins in
         add_clauses_super n fanins ;;;
         ret fr') p.

(* choice_computation.hpp:541-571: the frontier is explored in order; every node
   enters it at most once *)
Fixpoint explore (fuel : nat) (fr : list nat) : M prover unit :=
  match fuel with
  | O => fail
  | S fuel' =>
      match fr with
      | [] => ret tt
      | n :: rest => let! fr' := encode_node n rest in explore fuel' fr'
      end
  end.
(* choice_computation.hpp:532-572 cnf_node_add_to_solver *)
Definition cnf_node (n : nat) : M prover unit := fun p =>
  v ← smap p !! n;
  if decide (v <> 0) then Some (tt, p)
  else (let! fr := add_to_frontier n [] in explore (S (size s)) fr) p.

(* one query; asking about a variable the solver does not know violates its
   assertion.  set_nr_vars creates [init_vars] variables. *)
Definition query (solve : oracle) (lits : list N) : M prover answer := fun p =>
  if forallb (fun l => bool_decide (lit_var l < Nat.max (init_vars ps) (nvars (scls p)))) lits
  then Some (solve (sq p) (scls p) lits,
             Prover (svar p) (smap p) (sused p) (scls p) (scalls p) (S (sq p)))
  else None.

(* choice_computation.hpp:434-491: the queries of sat_prove *)
Definition prove_tail (solve : oracle) (repr n : nat) : M prover answer :=
  let! p2 := get in
  let! pr := lift (ph s !! repr) in
  let! pn := lift (ph s !! n) in
  let! a := lift (node_lit repr true p2) in
  let! b := lift (node_lit n (xorb pr pn) p2) in
  let! r := query solve [a; b] in
  match r with
  | Failure =>
      add_cls [[lit_not a; lit_not b]] ;;;
      if decide (repr = 0) then ret Failure
      else
        let! a' := lift (node_lit repr false p2) in
        let! b' := lift (node_lit n (Bool.eqb pr pn) p2) in
        let! r' := query solve [a'; b'] in
        match r' with
        | Failure => add_cls [[lit_not a'; lit_not b']] ;;; ret Failure
        | _ => ret r'
        end
  | _ => ret r
  end.
(* choice_computation.hpp:409-491 sat_prove *)
Definition sat_prove (solve : oracle) (repr n : nat) : M prover answer := fun p =>
  if decide (repr = n) then None (* assertion *)
  else
    (let! _ := (fun p => Some (tt, Prover (svar p) (smap p) (sused p) (scls p) (S (scalls p)) (sq p))) in
     let! p1 := get in
     let! _ := (if decide (max_sat_var ps <> 0 /\ max_sat_var ps < svar p1 /\ calls_recycle ps < scalls p1)
                then recycle else ret tt) in
     cnf_node repr ;;;
     cnf_node n ;;;
     prove_tail solve repr n) p.
End prover.

(* choice_computation.hpp:392-399 get_var_value, in the model of the last query *)
Definition get_var_value (p : prover) (model : list bool) (n : nat) : option bool :=
  v ← smap p !! n;
  if decide (v = 0) then Some false else model !! v.

(* ---- specification ---- *)
(* a correct solver: see Cnf.correct_solver, with any number of assumptions and
   answers that may depend on the history *)
Record correct_oracle (solve : oracle) : Prop := {
  or_sat : forall k cls lits m, solve k cls lits = Success m ->
    nvars cls <= length m /\ Forall (fun l => lit_var l < length m) lits /\
    cnf_sat (fun i => nth i m false) cls /\ Forall (fun l => lit_val (fun i => nth i m false) l = true) lits;
  or_unsat : forall k cls lits, solve k cls lits = Failure ->
    forall x, cnf_sat x cls -> ~ Forall (fun l => lit_val x l = true) lits
}.

(* value of node n as the solver sees it: relative to its value for the all-zero
   input if polarities are adjusted *)
Definition polar (ps : sparams) (s : aig) (v : nat -> bool) (n : nat) : bool :=
  xorb (v n) (polar_flip ps && default false (ph s !! n)).
(* x gives every encoded node its value *)
Definition agrees (ps : sparams) (s : aig) (p : prover) (v x : nat -> bool) : Prop :=
  forall n w, smap p !! n = Some w -> w <> 0 -> x w = polar ps s v n.

(* Histories: the prover is created for networks of up to sz nodes; the network
   grows by creation calls, in between sat_prove is called for two nodes. *)
Inductive phist (ps : sparams) (solve : oracle) (sz : nat) : aig -> prover -> Prop :=
| ph_init s p : reachable s -> size s <= sz -> prover_init sz = Some p -> phist ps solve sz s p
| ph_grow s p s' : phist ps solve sz s p -> later s s' -> size s' <= sz -> phist ps solve sz s' p
| ph_prove s p repr n r p' : phist ps solve sz s p -> repr < size s -> n < size s ->
    sat_prove ps s solve repr n p = Some (r, p') -> phist ps solve sz s p'.
