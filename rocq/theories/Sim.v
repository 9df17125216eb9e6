(* Model of include/operations/algorithms/simulation.hpp with the value
   computation of the networks (aig_network.hpp:1152-1212,
   klut_network.hpp:732-771), kitty/partial_truth_table.hpp and the containers of
   utils/node_map.hpp. *)
From Verif Require Import Base Aig AigSem Clean Tt TtCache Klut KlutSem Cnf.

(* ---- generic simulation ---- *)
Fixpoint opt_fold {A B} (f : A -> B -> option A) (a : A) (l : list B) : option A :=
  match l with
  | [] => Some a
  | x :: r => a' ← f a x; opt_fold f a' r
  end.

(* simulation.hpp:496-498: the values of the primary inputs *)
Definition set_inputs {V} (pi : nat -> option V) (ns : list nat) (vals : list V) : option (list V) :=
  opt_fold (fun vals p => v ← pi p.1; Some (<[p.2 := v]> vals)) vals (imap (fun i n => (i, n)) ns).

(* simulation.hpp:475-509 simulate_nodes for an AIG and a simulator with
   compute_constant [c] and compute_pi [pi] ([None]: out of range); [gate] is the
   network's compute for this type of values and [d] the default-constructed
   value with which the vector map starts (node_map.hpp:78-86).  An AIG has one
   constant node. *)
Definition sim_nodes {V} (c : bool -> V) (pi : nat -> option V) (gate : key -> V -> V -> option V) (d : V)
    (s : aig) : option (list V) :=
  vals ← set_inputs pi (pis s) (<[0 := c false]> (repeat d (size s)));
  gs ← gates s;
  opt_fold (fun vals n =>
    k ← ks s !! n;
    v1 ← vals !! sidx k.1;
    v2 ← vals !! sidx k.2;
    v ← gate k v1 v2;
    Some (<[n := v]> vals)) vals gs.

(* simulation.hpp:760-784 simulate, with compute_not [neg] *)
Definition sim_outputs {V} (c : bool -> V) (pi : nat -> option V) (neg : V -> V) (gate : key -> V -> V -> option V)
    (d : V) (s : aig) : option (list V) :=
  vals ← sim_nodes c pi gate d s;
  opt_map (fun f => v ← vals !! sidx f; Some (if scompl f then neg v else v)) (pos s).

(* simulation.hpp:50-64 default_simulator<bool>; aig_network.hpp:1153-1167 *)
Definition bool_gate (k : key) (v1 v2 : bool) : option bool :=
  Some (xorb v1 (scompl k.1) && xorb v2 (scompl k.2)).
Definition simulate_nodes_bool (a : list bool) (s : aig) : option (list bool) :=
  sim_nodes (fun b => b) (fun i => a !! i) bool_gate false s.
Definition simulate_bool (a : list bool) (s : aig) : option (list bool) :=
  sim_outputs (fun b => b) (fun i => a !! i) negb bool_gate false s.

(* simulation.hpp:71-85 input_word_simulator; shifting a 64-bit word by 64 or
   more is undefined *)
Definition word_pi (w : N) (i : nat) : option bool :=
  if decide (i < 64) then Some (N.testbit w (N.of_nat i)) else None.
Definition simulate_nodes_word (w : N) (s : aig) : option (list bool) :=
  sim_nodes (fun b => b) (word_pi w) bool_gate false s.
Definition simulate_word (w : N) (s : aig) : option (list bool) :=
  sim_outputs (fun b => b) (word_pi w) negb bool_gate false s.

(* simulation.hpp:91-116 default_simulator<dynamic_truth_table>, and 126-148 for
   static_truth_table; aig_network.hpp:1169-1184.  create_nth_var is modelled for
   variables of the table only.  The default value of a dynamic table has no
   variables, that of a static one has all ([d]). *)
Definition tt_gate (k : key) (t1 t2 : tt) : option tt :=
  if decide (nv t1 = nv t2) then Some (tt_and (tt_not_if t1 (scompl k.1)) (tt_not_if t2 (scompl k.2))) else None.
Definition tt_pi (nvars i : nat) : option tt := if decide (i < nvars) then Some (tt_var nvars i) else None.
Definition static_default (nvars : nat) : tt := tt_const nvars false.
Definition dynamic_default : tt := tt_const 0 false.
Definition simulate_nodes_tt (d : tt) (nvars : nat) (s : aig) : option (list tt) :=
  sim_nodes (tt_const nvars) (tt_pi nvars) tt_gate d s.
Definition simulate_tt (d : tt) (nvars : nat) (s : aig) : option (list tt) :=
  sim_outputs (tt_const nvars) (tt_pi nvars) tt_not tt_gate d s.

(* ---- LUT networks ---- *)
(* simulation.hpp:475-509 for a LUT network, which has two constant nodes; [gate]
   is the network's compute (Klut.kcompute_bool, Klut.kcompute_tt) *)
Definition ksim_nodes {V} (c : bool -> V) (pi : nat -> option V) (gate : nat -> list V -> option V) (d : V)
    (s : klut) : option (list V) :=
  vals ← set_inputs pi (kpis s) (<[1 := c true]> (<[0 := c false]> (repeat d (ksize s))));
  gs ← kgates s;
  opt_fold (fun vals n =>
    x ← kn s !! n;
    vs ← opt_map (fun c => vals !! c) (kch x);
    v ← gate n vs;
    Some (<[n := v]> vals)) vals gs.
Definition ksimulate_nodes_bool (a : list bool) (s : klut) : option (list bool) :=
  ksim_nodes (fun b => b) (fun i => a !! i) (kcompute_bool s) false s.
Definition ksimulate_nodes_tt (d : tt) (nvars : nat) (s : klut) : option (list tt) :=
  ksim_nodes (tt_const nvars) (tt_pi nvars) (kcompute_tt s) d s.
(* simulation.hpp:760-784; signals of LUT networks are never complemented *)
Definition ksimulate_tt (d : tt) (nvars : nat) (s : klut) : option (list tt) :=
  vals ← ksimulate_nodes_tt d nvars s; opt_map (fun f => vals !! f) (kpos s).
Definition ksimulate_bool (a : list bool) (s : klut) : option (list bool) :=
  vals ← ksimulate_nodes_bool a s; opt_map (fun f => vals !! f) (kpos s).

(* ---- partial truth tables ---- *)
(* kitty/partial_truth_table.hpp:48-70: 64-bit blocks and the number of bits *)
Record ptt := Ptt { pblocks : list N; pbits : nat }.
Definition nblocks (n : nat) : nat := if decide (n = 0) then 0 else (n - 1) / 64 + 1.
(* partial_truth_table.hpp:55-59 the constructor *)
Definition ptt_new (n : nat) : ptt := Ptt (repeat 0%N (nblocks n)) n.
(* partial_truth_table.hpp:67 the default constructor *)
Definition ptt_empty : ptt := Ptt [] 0.
(* partial_truth_table.hpp:146-152 mask_bits *)
Definition mask_bits (t : ptt) : ptt :=
  if decide (pbits t mod 64 = 0) then t
  else let l := length (pblocks t) - 1 in
       Ptt (alter (fun w => N.land w (N.ones (N.of_nat (pbits t mod 64)))) l (pblocks t)) (pbits t).
(* partial_truth_table.hpp:163-171 resize *)
Definition ptt_resize (n : nat) (t : ptt) : ptt :=
  mask_bits (Ptt (take (nblocks n) (pblocks t) ++ repeat 0%N (nblocks n - length (pblocks t))) n).
(* partial_truth_table.hpp:176-183 add_bit.  When the new number of bits is a
   multiple of 64 the shift count is 2^32-1, which C++ leaves undefined; with
   [wrap] it is taken modulo 64 as x86-64 processors do. *)
Definition add_bit (wrap : bool) (b : bool) (t : ptt) : option ptt :=
  let t' := ptt_resize (pbits t + 1) t in
  let r := pbits t' mod 64 in
  if negb b then Some t'
  else
    sh ← (if decide (r = 0) then (if wrap then Some 63 else None) else Some (r - 1));
    Some (Ptt (alter (fun w => N.lor w (N.shiftl 1 (N.of_nat sh))) (length (pblocks t') - 1) (pblocks t')) (pbits t')).
(* kitty/algorithm.hpp:53-60 unary_operation with ~ *)
Definition ptt_not (t : ptt) : ptt := mask_bits (Ptt (map (fun w => N.lnot w 64) (pblocks t)) (pbits t)).
(* kitty/algorithm.hpp:121-130 binary_operation with & *)
Definition ptt_and (t u : ptt) : option ptt :=
  if decide (pbits t = pbits u)
  then Some (mask_bits (Ptt (zip_with N.land (pblocks t) (pblocks u)) (pbits t))) else None.

(* aig_network.hpp:1169-1184 *)
Definition ptt_gate (k : key) (t1 t2 : ptt) : option ptt :=
  ptt_and (if scompl k.1 then ptt_not t1 else t1) (if scompl k.2 then ptt_not t2 else t2).
(* aig_network.hpp:1186-1212: compute only the last block *)
Definition ptt_update (k : key) (result t1 t2 : ptt) : option ptt :=
  if decide (0 < pbits t1 /\ pbits t1 = pbits t2 /\ pbits result <= pbits t1 /\
             (length (pblocks result) = length (pblocks t1) \/
              length (pblocks result) = length (pblocks t1) - 1 /\ pbits result mod 64 = 0)) then
    w1 ← last (pblocks t1);
    w2 ← last (pblocks t2);
    let r := ptt_resize (pbits t1) result in
    let w := N.land (if scompl k.1 then N.lnot w1 64 else w1) (if scompl k.2 then N.lnot w2 64 else w2) in
    Some (mask_bits (Ptt (<[length (pblocks r) - 1 := w]> (pblocks r)) (pbits r)))
  else None.

(* ---- simulation with patterns ---- *)
(* simulation.hpp:153-268 partial_simulator *)
Record psim := Psim { patterns : list ptt; npat : nat }.
(* simulation.hpp:246-260 add_pattern *)
Fixpoint add_bits (wrap : bool) (p : list bool) (ts : list ptt) : option (list ptt) :=
  match p, ts with
  | [], [] => Some []
  | b :: p', t :: ts' => t' ← add_bit wrap b t; r ← add_bits wrap p' ts'; Some (t' :: r)
  | _, _ => None
  end.
Definition add_pattern (wrap : bool) (p : list bool) (sim : psim) : option psim :=
  ts ← add_bits wrap p (patterns sim); Some (Psim ts (npat sim + 1)).
(* simulation.hpp:220-229 *)
Definition psim_const (sim : psim) (b : bool) : ptt :=
  if b then ptt_not (ptt_new (npat sim)) else ptt_new (npat sim).

(* values of an unordered node map: [None] where there is no entry *)
Notation nmap := (list (option ptt)).

(* simulation.hpp:633-647 update_const_pi *)
Definition update_const_pi (s : aig) (sim : psim) (m : nmap) : option nmap :=
  set_inputs (fun i => t ← patterns sim !! i; Some (Some t)) (pis s) (<[0 := Some (psim_const sim false)]> m).

(* simulation.hpp:597-631 simulate_fanin_cone ([re] = false) and
   re_simulate_fanin_cone ([re] = true).  The recursion follows fanins; its depth
   is bounded by the fuel.  compute fails on the constant and on inputs. *)
Fixpoint sim_cone (s : aig) (sim : psim) (fuel : nat) (re : bool) (n : nat) (m : nmap) : option nmap :=
  match fuel with
  | O => None
  | S fuel' =>
      let visit c m :=
        o ← m !! c;
        match o with
        | None => sim_cone s sim fuel' false c m
        | Some t => if decide (pbits t = npat sim) then Some m else sim_cone s sim fuel' true c m
        end in
      ci ← is_ci s n;
      if decide (n = 0 \/ ci = true) then None
      else
        k ← ks s !! n;
        m1 ← visit (sidx k.1) m;
        v1 ← mjoin (m1 !! sidx k.1);
        m2 ← visit (sidx k.2) m1;
        v2 ← mjoin (m2 !! sidx k.2);
        v ← (if re then r ← mjoin (m2 !! n); ptt_update k r v1 v2 else ptt_gate k v1 v2);
        Some (<[n := Some v]> m2)
  end.

(* simulation.hpp:659-685 simulate_node; node_to_value[constant] makes an empty
   entry if there is none *)
Definition simulate_node (s : aig) (sim : psim) (n : nat) (m : nmap) : option nmap :=
  c ← m !! 0;
  let t := default ptt_empty c in
  m1 ← (if decide (pbits t = npat sim) then Some (<[0 := Some t]> m) else update_const_pi s sim m);
  o ← m1 !! n;
  match o with
  | None => sim_cone s sim (S (size s)) false n m1
  | Some u => if decide (pbits u = npat sim) then Some m1 else sim_cone s sim (S (size s)) true n m1
  end.

(* simulation.hpp:696-732 simulate_nodes for patterns *)
Definition simulate_nodes_ptt (s : aig) (sim : psim) (whole : bool) (m : nmap) : option nmap :=
  m1 ← update_const_pi s sim m;
  gs ← gates s;
  opt_fold (fun m n =>
    o ← m !! n;
    match o with
    | None => if whole then sim_cone s sim (S (size s)) false n m else None
    | Some t => if whole then Some m
                else if decide (pbits t = npat sim) then Some m else sim_cone s sim (S (size s)) true n m
    end) m1 gs.

(* ---- specification ---- *)
(* fanins of the gates that are left come before them and are left, too *)
Definition in_order (s : aig) : Prop :=
  forall n m, fanin s n m -> is_dead s n = Some false -> m < n /\ is_dead s m = Some false.
(* input values: primary inputs as given, registers false *)
Definition inputs_of (s : aig) (a : nat -> bool) (k : nat) : bool := if decide (k < npi s) then a k else false.
Definition kinputs_of (s : klut) (a : nat -> bool) (k : nat) : bool := if decide (k < knpi s) then a k else false.
(* values of a LUT network whose LUTs see their inputs in the order [arr]; the
   meaning of the network is that of the identity *)
Record kvaluation_by (arr : list nat -> list nat) (s : klut) (env : nat -> bool) (v : nat -> bool) : Prop := {
  kb_0 : v 0 = false;
  kb_1 : v 1 = true;
  kb_in : forall k n, kins s !! k = Some n -> v n = env k;
  kb_gate : forall n x f, 1 < n -> kn s !! n = Some x -> kis_ci s n = Some false ->
     cache_get (kfn x) (kc s) = Some f ->
     v n = tt_eval f (fun k => match arr (kch x) !! k with Some c => v c | None => false end)
}.
(* bit i of a pattern table *)
Definition pbit (t : ptt) (i : nat) : bool :=
  match pblocks t !! (i / 64) with Some w => N.testbit w (N.of_nat (i mod 64)) | None => false end.
(* the pattern tables of a list of patterns *)
Definition represents (ps : list (list bool)) (sim : psim) (npis : nat) : Prop :=
  npat sim = length ps /\ length (patterns sim) = npis /\ Forall (fun p => length p = npis) ps /\
  forall k t, patterns sim !! k = Some t ->
    pbits t = length ps /\ length (pblocks t) = nblocks (pbits t) /\
    (forall i, pbits t <= i -> pbit t i = false) /\
    forall i p, ps !! i = Some p -> p !! k = Some (pbit t i).
(* t has the values of node n for the first patterns, whatever the registers hold *)
Definition correct (s : aig) (ps : list (list bool)) (t : ptt) (n : nat) : Prop :=
  pbits t <= length ps /\
  forall i p env v, i < pbits t -> ps !! i = Some p ->
    (forall k, k < npi s -> env k = default false (p !! k)) -> valuation s env v -> pbit t i = v n.
(* histories: start with some patterns and no values; then add patterns and
   simulate in any order *)
Inductive session (wrap : bool) (s : aig) : list (list bool) -> psim -> nmap -> Prop :=
| ses_start ps sim : represents ps sim (npi s) -> session wrap s ps sim (repeat None (size s))
| ses_add ps sim m p sim' : session wrap s ps sim m ->
    add_pattern wrap p sim = Some sim' -> session wrap s (ps ++ [p]) sim' m
| ses_node ps sim m n m' : session wrap s ps sim m ->
    simulate_node s sim n m = Some m' -> session wrap s ps sim m'
| ses_nodes ps sim m whole m' : session wrap s ps sim m ->
    simulate_nodes_ptt s sim whole m = Some m' -> session wrap s ps sim m'
| ses_erase ps sim m n : session wrap s ps sim m -> session wrap s ps sim (<[n := None]> m).
(* a table that can be brought up to date: it lacks bits of the last block only *)
Definition recent (sim : psim) (t : ptt) : Prop :=
  pbits t = npat sim \/
  0 < npat sim /\ pbits t <= npat sim /\
  (nblocks (pbits t) = nblocks (npat sim) \/ S (nblocks (pbits t)) = nblocks (npat sim) /\ pbits t mod 64 = 0).
