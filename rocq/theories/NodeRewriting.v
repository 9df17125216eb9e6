(* Model of include/operations/optimization/detail/node_rewriting.hpp and of the
   decoding of its database, detail/database_npn4_aig.hpp.  (database_subgraphs_aig
   itself is in NpnDatabase.v.) *)
From stdpp Require Import gmap.
From Verif Require Import Base Aig AigSem Clean Tt Npn Cnf Sim.

(* ---- database_npn4_aig.hpp ---- *)
(* database_npn4_aig.hpp:41-44; reading the first entry of an empty vector is
   undefined *)
Definition db_num_pis (vs : list N) : option nat := h ← head vs; Some (N.to_nat (N.land h 255)).
Definition db_num_pos (vs : list N) : option nat := h ← head vs; Some (N.to_nat (N.land (N.shiftr h 8) 255)).

(* database_npn4_aig.hpp:46-54 foreach_gate, with its assertion; when there are
   fewer entries than outputs the index wraps around and leaves the vector *)
Fixpoint pairs (l : list N) : list (N * N) :=
  match l with
  | a :: b :: l' => (a, b) :: pairs l'
  | _ => []
  end.
Definition db_gates (vs : list N) : option (list (N * N)) :=
  np ← db_num_pos vs;
  if decide (np + 1 <= length vs) then
    let body := take (length vs - np - 1) (tail vs) in
    if Nat.even (length body) then Some (pairs body) else None
  else None.
(* database_npn4_aig.hpp:56-63 foreach_po *)
Definition db_pos (vs : list N) : option (list N) :=
  np ← db_num_pos vs;
  if decide (np <= length vs) then Some (drop (length vs - np) vs) else None.

(* database_npn4_aig.hpp:86-92: the signal of a literal; at() throws *)
Definition db_lit (sigs : list signal) (l : N) : option signal :=
  f ← sigs !! N.to_nat (N.div2 l); Some (if N.odd l then snot f else f).
(* database_npn4_aig.hpp:84-93 *)
Definition db_gate (sigs : list signal) (g : N * N) : M aig (list signal) :=
  if decide (g.1 = g.2) then fail
  else
    let! a := lift (db_lit sigs g.1) in
    let! b := lift (db_lit sigs g.2) in
    let! f := (if (g.2 <? g.1)%N then create_xor a b else create_and a b) in
    ret (sigs ++ [f]).
(* database_npn4_aig.hpp:70-99, for the callback of line 115 *)
Definition insert_into_network (leaves : list signal) (vs : list N) : M aig unit :=
  let! np := lift (db_num_pis vs) in
  if decide (length leaves = np) then
    let! gs := lift (db_gates vs) in
    let! sigs := foldM db_gate (get_constant false :: leaves) gs in
    let! ps := lift (db_pos vs) in
    foldM (fun _ l => let! f := lift (db_lit sigs l) in create_po f ;;; ret Datatypes.tt) Datatypes.tt ps
  else fail.
(* database_npn4_aig.hpp:105-118 *)
Definition decode_data_rewriting (vs : list N) : M aig unit :=
  let! np := lift (db_num_pis vs) in
  let! leaves := mapM (fun _ => create_pi) (seq 0 np) in
  insert_into_network leaves vs.

(* ---- node_rewriting.hpp ---- *)
(* the unordered_map from representatives to signals of the database *)
Definition classes := list (tt * list signal).
Fixpoint class_find (m : classes) (r : tt) : option (list signal) :=
  match m with
  | [] => None
  | (q, l) :: m' => if decide (q = r) then Some l else class_find m' r
  end.
(* lines 125-132, 139-146: insert or push_back *)
Fixpoint class_add (m : classes) (r : tt) (f : signal) : classes :=
  match m with
  | [] => [(r, [f])]
  | (q, l) :: m' => if decide (q = r) then (q, l ++ [f]) :: m' else (q, l) :: class_add m' r f
  end.
(* lines 98-106: the table of all canonizations is the function itself *)
Definition own_representative (t : tt) : option bool := '(r, _, _) ← exact_npn_canonization t; Some (bool_decide (r = t)).
(* lines 123-149, for one node *)
Definition classify (sims : list tt) (m : classes) (n : nat) : option classes :=
  t ← sims !! n;
  c ← own_representative t;
  if c : bool then Some (class_add m t (Sig n false))
  else
    c' ← own_representative (tt_not t);
    Some (if c' : bool then class_add m (tt_not t) (Sig n true) else m).
(* lines 116-150 generate_db; aig_network.hpp:993-999 foreach_node leaves out dead
   nodes.  [buckets]: of the hash table of the database network *)
Definition generate_db (buckets : nat) (vs : list N) : option (aig * classes) :=
  '(_, db) ← decode_data_rewriting vs (aig_init_n buckets);
  sims ← simulate_nodes_tt (static_default 4) 4 db;
  ns ← sieve (fun n => d ← is_dead db n; Some (negb d)) (seq 0 (size db));
  m ← opt_fold (classify sims) [] ns;
  Some (db, m).

(* lines 158-177 padding_network_by_signal; the recursion follows the indices of
   the database network *)
Fixpoint padding (db : aig) (fuel n : nat) : M (aig * gmap nat signal) signal := fun st =>
  match fuel with
  | O => None
  | S fuel' =>
      match st.2 !! n with
      | Some f => Some (f, st)
      | None =>
          k ← ks db !! n;
          '((a, b), st1) ←
            (if decide (n = 0 \/ k.1 = k.2) then Some ((Sig 0 false, Sig 0 false), st)
             else
               '(x, st1) ← padding db fuel' (sidx k.1) st;
               '(y, st2) ← padding db fuel' (sidx k.2) st1;
               Some ((sxor x (scompl k.1), sxor y (scompl k.2)), st2));
          '(f, s') ← create_and a b st1.1;
          Some (f, (s', <[n := f]> (st1.2)))
      end
  end.

(* lines 76-83: the signals for the inputs of the database *)
Definition db_inputs (pis : list signal) (ph : N) (perm : list nat) : option (gmap nat signal) :=
  opt_fold (fun m i =>
    p ← perm !! i;
    f ← pis !! p;
    Some (match m !! S i with Some _ => m | None => <[S i := if N.testbit ph (N.of_nat p) then snot f else f]> m end))
    {[0 := get_constant false]} (seq 0 4).
(* lines 72-74 *)
Definition leaf_signals (leaves : list signal) : option (list signal) :=
  if decide (length leaves <= 4) then Some (leaves ++ repeat (get_constant false) (4 - length leaves)) else None.

(* lines 86-92; [fn] is the callback: it looks at the network, may change a state
   of its own, and says whether to go on *)
Fixpoint candidates {C} (fn : aig -> signal -> C -> option (bool * C)) (db : aig) (neg : bool) (l : list signal)
    (s : aig) (m : gmap nat signal) (c : C) : option (aig * C) :=
  match l with
  | [] => Some (s, c)
  | cand :: l' =>
      '(f, (s', m')) ← padding db (S (size db)) (sidx cand) (s, m);
      '(b, c') ← fn s' (if xorb (scompl cand) neg then snot f else f) c;
      if b : bool then candidates fn db neg l' s' m' c' else Some (s', c')
  end.
(* lines 56-93 operator() *)
Definition node_rewriting {C} (fn : aig -> signal -> C -> option (bool * C)) (d : aig * classes) (t : tt)
    (leaves : list signal) (s : aig) (c : C) : option (aig * C) :=
  dtt ← tt_extend t 4;
  '(r, ph, perm) ← exact_npn_canonization dtt;
  match class_find d.2 r with
  | None => Some (s, c)
  | Some l =>
      pis ← leaf_signals leaves;
      m ← db_inputs pis ph perm;
      candidates fn d.1 (N.testbit ph 4) l s m c
  end.

(* ---- specification ---- *)
(* the database vector can be decoded: three checks that look at the numbers only *)
Definition db_valid (vs : list N) : Prop :=
  exists ngates np, head vs = Some (N.shiftl (N.of_nat ngates) 16 + N.shiftl (N.of_nat np) 8 + 4)%N /\ np < 256 /\
    length vs = 1 + 2 * ngates + np /\
    (forall i, i < ngates -> exists a b, vs !! (1 + 2 * i) = Some a /\ vs !! (2 + 2 * i) = Some b /\ a <> b /\
       (a < 2 * N.of_nat (5 + i))%N /\ (b < 2 * N.of_nat (5 + i))%N) /\
    (forall i, i < np -> exists a, vs !! (1 + 2 * ngates + i) = Some a /\ (a < 2 * N.of_nat (5 + ngates))%N).
(* f computes the function t of the leaves in network s *)
Definition implements (s : aig) (t : tt) (leaves : list signal) (f : signal) : Prop :=
  valid s f /\ forall env v, valuation s env v -> sval v f = tt_eval t (fun i => default false (sval v <$> leaves !! i)).
