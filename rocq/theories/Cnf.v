(* CNF generation and equivalence checking:
   include/operations/algorithms/cnf.hpp, equivalence_checking.hpp, and the
   bookkeeping of variables in libs/percy/percy/solvers/bsat2.hpp and
   libs/abcsat/satSolver.cpp. *)
From Verif Require Import Base Aig AigSem Clean Tt TtCache Klut KlutSem Isop.

(* cnf.hpp:35-57.  Literals are not truncated to 32 bits. *)
Definition make_lit (var : nat) (c : bool) : N := (2 * N.of_nat var + N.b2n c)%N.
Definition lit_not (l : N) : N := N.lxor l 1.
Definition lit_not_cond (l : N) (c : bool) : N := if c then N.lxor l 1 else l.
Definition lit_var (l : N) : nat := N.to_nat (N.div2 l).

(* cnf.hpp:66-224 *)
Definition on_and (c a b : N) : list (list N) :=
  [[a; lit_not c]; [b; lit_not c]; [lit_not a; lit_not b; c]].
Definition on_or (c a b : N) : list (list N) :=
  [[lit_not a; c]; [lit_not b; c]; [a; b; lit_not c]].
Definition on_xor (c a b : N) : list (list N) :=
  [[lit_not a; lit_not b; lit_not c]; [lit_not a; b; c]; [a; lit_not b; c]; [a; b; lit_not c]].
Definition on_maj (d a b c : N) : list (list N) :=
  [[lit_not a; lit_not b; d]; [lit_not a; lit_not c; d]; [lit_not b; lit_not c; d];
   [a; b; lit_not d]; [a; c; lit_not d]; [b; c; lit_not d]].
Definition on_xor3 (d a b c : N) : list (list N) :=
  [[lit_not a; b; c; d]; [a; lit_not b; c; d]; [a; b; lit_not c; d]; [a; b; c; lit_not d];
   [a; lit_not b; lit_not c; lit_not d]; [lit_not a; b; lit_not c; lit_not d];
   [lit_not a; lit_not b; c; lit_not d]; [lit_not a; lit_not b; lit_not c; d]].
Definition on_ite (d a b c : N) : list (list N) :=
  [[lit_not a; lit_not b; d]; [lit_not a; b; lit_not d]; [a; lit_not c; d]; [a; c; lit_not d]].

(* cnf.hpp:226-246 on_function: one clause per cube *)
Fixpoint cube_clause (i : nat) (lits : list N) (c : cube) : list N :=
  match lits with
  | [] => []
  | l :: r => (if get_cmask c i then [lit_not_cond l (negb (get_cbit c i))] else []) ++ cube_clause (S i) r c
  end.
Definition on_function (f : N) (child_lits : list N) (t : tt) : option (list (list N)) :=
  cnf ← cnf_characteristic t;
  Some (map (cube_clause 0 (child_lits ++ [f])) cnf).

(* aig_network.hpp:1082-1089 foreach_gate: the nodes from 1 on that are neither
   inputs nor dead *)
Fixpoint sieve (p : nat -> option bool) (l : list nat) : option (list nat) :=
  match l with
  | [] => Some []
  | n :: r => b ← p n; r' ← sieve p r; Some (if b : bool then n :: r' else r')
  end.
Definition gates (s : aig) : option (list nat) :=
  sieve (fun n => ci ← is_ci s n; d ← is_dead s n; Some (negb ci && negb d)) (seq 1 (size s - 1)).

(* assign consecutive literals to a list of nodes *)
Fixpoint number (v : nat) (ns : list nat) (m : list N) : list N :=
  match ns with
  | [] => m
  | n :: r => number (S v) r (<[n := make_lit v false]> m)
  end.

(* cnf.hpp:284-338 node_literals.  The node map starts with zeros. *)
Definition node_literals (s : aig) (offset : option nat) : option (list N) :=
  gs ← gates s;
  Some (number (default (npi s + 1) offset) gs
         (number 1 (pis s) (<[0 := make_lit 0 false]> (repeat 0%N (size s))))).

(* literal of a signal, cnf.hpp:366, 459 *)
Definition sig_lit (lits : list N) (f : signal) : option N :=
  l ← lits !! sidx f; Some (lit_not_cond l (scompl f)).

(* cnf.hpp:362-375: the clauses of one gate.  In an AIG is_and holds for every
   gate, so the other cases are never reached. *)
Definition gate_clauses (s : aig) (lits : list N) (n : nat) : option (list (list N)) :=
  k ← ks s !! n;
  a ← sig_lit lits k.1;
  b ← sig_lit lits k.2;
  c ← lits !! n;
  Some (on_and c a b).

Fixpoint opt_map {A B} (f : A -> option B) (l : list A) : option (list B) :=
  match l with
  | [] => Some []
  | x :: r => y ← f x; ys ← opt_map f r; Some (y :: ys)
  end.

(* cnf.hpp:356-462 generate_cnf_impl::run: clauses and output literals *)
Definition generate_cnf (s : aig) (lits : list N) : option (list (list N) * list N) :=
  c0 ← lits !! 0;
  gs ← gates s;
  cls ← opt_map (gate_clauses s lits) gs;
  os ← opt_map (sig_lit lits) (pos s);
  Some ([lit_not c0] :: concat cls, os).

(* The same for LUT networks (klut_network.hpp:711-718 foreach_gate starts at
   node 2; signals are never complemented; is_and and its relatives do not
   exist, so every gate is a general function). *)
Definition kgates (s : klut) : option (list nat) :=
  sieve (fun n => ci ← kis_ci s n; Some (negb ci)) (seq 2 (ksize s - 2)).
Definition kpis (s : klut) : list nat := take (knpi s) (kins s).
Definition kpos (s : klut) : list nat := take (knpo s) (kouts s).
Definition knode_literals (s : klut) (offset : option nat) : option (list N) :=
  gs ← kgates s;
  Some (number (default (knpi s + 1) offset) gs
         (number 1 (kpis s) (<[1 := make_lit 0 true]> (<[0 := make_lit 0 false]> (repeat 0%N (ksize s)))))).
Definition kgate_clauses (s : klut) (lits : list N) (n : nat) : option (list (list N)) :=
  x ← kn s !! n;
  cl ← opt_map (fun c => lits !! c) (kch x);
  l ← lits !! n;
  f ← knode_function s n;
  on_function l cl f.
Definition kgenerate_cnf (s : klut) (lits : list N) : option (list (list N) * list N) :=
  c0 ← lits !! 0;
  gs ← kgates s;
  cls ← opt_map (kgate_clauses s lits) gs;
  os ← opt_map (fun f => lits !! f) (kpos s);
  Some ([lit_not c0] :: concat cls, os).

(* Answers of the solver (percy::synth_result); a model is the list of the values
   of its variables. *)
Inductive answer := Success (model : list bool) | Failure | Timeout.
(* satSolver.cpp:1819-1827: adding clauses creates the variables up to the
   largest one that occurs *)
Definition nvars (cls : list (list N)) : nat :=
  foldr (fun c m => foldr (fun l m => Nat.max (S (lit_var l)) m) m c) 0 cls.
(* A solver called with clauses and one assumption literal.  The return value
   of add_clause is ignored by the code; the solver is any function of the
   clauses. *)
Definition solver := list (list N) -> N -> answer.

(* equivalence_checking.hpp:85-115, 144-151.  [None]: an assertion of the solver
   fails: solving under an assumption on an unknown variable
   (satSolver.cpp:2068) or reading the value of one (satSolver.h:218-222).
   Some (None, _): nullopt.  The counterexample is the second component. *)
Definition equivalence_checking (solve : solver) (s : aig) : option (option bool * list bool) :=
  if decide (npo s = 1) then
    lits ← node_literals s None;
    '(cls, os) ← generate_cnf s lits;
    out ← os !! 0;
    if decide (lit_var out < nvars cls) then
      match solve cls out with
      | Timeout => Some (None, [])
      | Failure => Some (Some true, [])
      | Success m => cex ← opt_map (fun i => m !! i) (seq 1 (npi s)); Some (Some false, cex)
      end
    else None
  else Some (None, []).

(* ---- specification ---- *)
(* value of a literal under an assignment of the variables; the even literal of a
   variable is the positive one *)
Definition lit_val (x : nat -> bool) (l : N) : bool := xorb (x (lit_var l)) (N.odd l).
Definition clause_sat (x : nat -> bool) (c : list N) : Prop := exists l, l ∈ c /\ lit_val x l = true.
Definition cnf_sat (x : nat -> bool) (cls : list (list N)) : Prop := forall c, c ∈ cls -> clause_sat x c.

(* no gate has been removed *)
Definition alive (s : aig) : Prop := forall n, is_gate s n -> is_dead s n = Some false.

(* The clauses cls over the node literals lits describe the network s. *)
Record cnf_exact (s : aig) (lits : list N) (cls : list (list N)) (os : list N) : Prop := {
  (* every node has a positive literal of its own *)
  ce_len : length lits = size s;
  ce_pos : forall n l, lits !! n = Some l -> N.odd l = false;
  ce_inj : forall n n' l l', lits !! n = Some l -> lits !! n' = Some l' -> lit_var l = lit_var l' -> n = n';
  (* the satisfying assignments are the node values under the values of variables 1, 2, ... *)
  ce_sat : forall x, cnf_sat x cls <->
    exists v, valuation s (fun k => x (S k)) v /\ forall n l, lits !! n = Some l -> lit_val x l = v n;
  (* all input assignments occur *)
  ce_all : forall env, exists x, cnf_sat x cls /\ forall k, k < npi s -> x (S k) = env k;
  (* output literals *)
  ce_out : forall x v i f l, valuation s (fun k => x (S k)) v -> cnf_sat x cls ->
    pos s !! i = Some f -> os !! i = Some l -> lit_val x l = sval v f;
  ce_outs : length os = npo s
}.

(* The same for a LUT network; the two constant nodes share variable 0 with
   opposite polarities. *)
Record kcnf_exact (s : klut) (lits : list N) (cls : list (list N)) (os : list N) : Prop := {
  kce_len : length lits = ksize s;
  kce_inj : forall n n' l l', lits !! n = Some l -> lits !! n' = Some l' -> lit_var l = lit_var l' ->
    n = n' \/ (n < 2 /\ n' < 2);
  kce_sat : forall x, cnf_sat x cls <->
    exists v, kvaluation s (fun k => x (S k)) v /\ forall n l, lits !! n = Some l -> lit_val x l = v n;
  kce_all : forall env, exists x, cnf_sat x cls /\ forall k, k < knpi s -> x (S k) = env k;
  kce_out : forall x v i f l, kvaluation s (fun k => x (S k)) v -> cnf_sat x cls ->
    kpos s !! i = Some f -> os !! i = Some l -> lit_val x l = v f;
  kce_outs : length os = length (kpos s)
}.

(* A correct solver: models satisfy the clauses and the assumption and assign
   all variables; "failure" means there is no model. *)
Record correct_solver (solve : solver) : Prop := {
  solve_sat : forall cls a m, solve cls a = Success m -> length m = nvars cls /\
    cnf_sat (fun i => nth i m false) cls /\ lit_val (fun i => nth i m false) a = true;
  solve_unsat : forall cls a, solve cls a = Failure ->
    forall x, cnf_sat x cls -> lit_val x a = false
}.

(* solving never gives up on a known assumption *)
Definition complete_solver (solve : solver) : Prop :=
  forall cls a, lit_var a < nvars cls -> solve cls a <> Timeout.
