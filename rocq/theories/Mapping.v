(* Mapped networks: include/database/views/mapping_view.hpp,
   include/operations/algorithms/network_to_klut.hpp and
   include/operations/algorithms/detail/convert_to_aig.hpp. *)
From Verif Require Import Base Aig AigSem Topo Clean Tt TtCache Klut KlutSem Isop Cnf.

(* mapping_view.hpp:38-45: mappings, mapping_size, functions and cache.  One
   vector of 32-bit words holds the index of the cell of every node, followed by
   the cells (number of leaves, leaves). *)
Record mview := MView { mm : list N; msz : N; mfn : list N; mcache : cache }.

(* mapping_view.hpp:120-138, with StoreFunction *)
Definition mv_init (size : nat) : mview :=
  MView (repeat 0%N size) 0 (repeat 0%N size) (snd (cache_insert (tt_const 0 false) cache_empty)).

(* mapping_view.hpp:140-160 *)
Definition has_mapping (m : mview) : bool := negb (bool_decide (msz m = 0%N)).
Definition is_cell_root (m : mview) (n : nat) : option bool :=
  x ← mm m !! n; Some (negb (bool_decide (x = 0%N))).
Definition clear_mapping (size : nat) (m : mview) : mview := MView (repeat 0%N size) 0 (mfn m) (mcache m).
Definition num_cells (m : mview) : N := msz m.

(* mapping_view.hpp:162-186 add_to_mapping *)
Definition add_to_mapping (n : nat) (leaves : list nat) (m : mview) : option mview :=
  x ← mm m !! n;
  Some (MView (<[n := u32 (N.of_nat (length (mm m)))]> (mm m)
               ++ u32 (N.of_nat (length leaves)) :: map (fun l => u32 (N.of_nat l)) leaves)
              (if decide (x = 0%N) then u32 (msz m + 1) else msz m) (mfn m) (mcache m)).

(* mapping_view.hpp:188-198 remove_from_mapping *)
Definition remove_from_mapping (n : nat) (m : mview) : option mview :=
  x ← mm m !! n;
  Some (MView (<[n := 0%N]> (mm m))
              (if decide (x = 0%N) then msz m else u32 (msz m + (2 ^ 32 - 1))) (mfn m) (mcache m)).

(* mapping_view.hpp:200-210 *)
Definition cell_function (m : mview) (n : nat) : option tt :=
  l ← mfn m !! n; cache_get l (mcache m).
Definition set_cell_function (n : nat) (f : tt) (m : mview) : option mview :=
  _ ← mfn m !! n;
  let '(l, c) := cache_insert f (mcache m) in
  Some (MView (mm m) (msz m) (<[n := l]> (mfn m)) c).

(* mapping_view.hpp:212-220 foreach_cell_fanin; reading past the vector is [None] *)
Definition cell_fanin (m : mview) (n : nat) : option (list nat) :=
  i ← mm m !! n;
  k ← mm m !! N.to_nat i;
  if decide (N.to_nat i + 1 + N.to_nat k <= length (mm m)) then
    Some (map N.to_nat (take (N.to_nat k) (drop (N.to_nat i + 1) (mm m))))
  else None.

Fixpoint fold_opt {A B} (f : B -> A -> option B) (b : B) (l : list A) : option B :=
  match l with
  | [] => Some b
  | x :: r => b' ← f b x; fold_opt f b' r
  end.

(* operation sequences *)
Inductive mop : Type :=
| MAdd (n : nat) (leaves : list nat) | MRemove (n : nat) | MClear | MSet (n : nat) (f : tt).
Definition mstep (size : nat) (m : mview) (o : mop) : option mview :=
  match o with
  | MAdd n l => add_to_mapping n l m
  | MRemove n => remove_from_mapping n m
  | MClear => Some (clear_mapping size m)
  | MSet n f => set_cell_function n f m
  end.
Definition mrun (size : nat) (ops : list mop) (m : mview) : option mview := fold_opt (mstep size) m ops.

(* network_to_klut.hpp:44-50 *)
Inductive driver := DNone | DPos | DNeg | DMixed.
(* network_to_klut.hpp:57-73 *)
Definition driver_po (dt : list driver) (f : signal) : option (list driver) :=
  d ← dt !! sidx f;
  Some (<[sidx f := match d with
                    | DNone => if scompl f then DNeg else DPos
                    | DPos => if scompl f then DMixed else DPos
                    | DNeg => if scompl f then DNeg else DMixed
                    | DMixed => DMixed
                    end]> dt).
(* network_to_klut.hpp:80-85 *)
Definition driver_leaf (dt : list driver) (c : nat) : option (list driver) :=
  d ← dt !! c;
  Some (match d with DNeg => <[c := DMixed]> dt | _ => dt end).
(* the test of lines 77, 149 *)
Definition skipped (s : aig) (m : mview) (n : nat) : option bool :=
  pi ← is_pi s n; r ← is_cell_root m n;
  Some (bool_decide (n = 0) || pi || negb r).
(* network_to_klut.hpp:76-86; foreach_node leaves out dead nodes *)
Definition driver_node (s : aig) (m : mview) (dt : list driver) (n : nat) : option (list driver) :=
  d ← is_dead s n;
  if d : bool then Some dt else
  sk ← skipped s m n;
  if sk : bool then Some dt else l ← cell_fanin m n; fold_opt driver_leaf dt l.
Definition drivers (s : aig) (m : mview) : option (list driver) :=
  dt ← fold_opt driver_po (repeat DNone (size s)) (pos s);
  fold_opt (driver_node s m) dt (seq 0 (size s)).

(* node_to_signal and opposites.  Both start with zeros: a missing key of
   opposites is default-constructed when read. *)
Definition sigs : Type := list nat * list nat.

(* network_to_klut.hpp:89-114; both constants have node 0 *)
Definition collapse_constant (dt : list driver) (t : sigs) : option sigs :=
  d ← dt !! 0;
  Some (match d with
        | DNone | DPos => (<[0 := kget_constant false]> t.1, t.2)
        | DNeg => (<[0 := kget_constant true]> t.1, t.2)
        | DMixed => (<[0 := kget_constant false]> t.1, <[0 := kget_constant true]> t.2)
        end).
(* network_to_klut.hpp:117-138 *)
Definition collapse_pi (dt : list driver) (t : sigs) (n : nat) : M klut sigs :=
  let! d := lift (dt !! n) in
  let! f := kcreate_pi in
  match d with
  | DNone | DPos => ret (<[n := f]> t.1, t.2)
  | DNeg => let! g := kcreate_not f in ret (<[n := g]> t.1, t.2)
  | DMixed => let! g := kcreate_not f in ret (<[n := f]> t.1, <[n := g]> t.2)
  end.
(* network_to_klut.hpp:147-175 *)
Definition collapse_cell (s : aig) (m : mview) (dt : list driver) (t : sigs) (n : nat) : M klut sigs :=
  let! sk := lift (skipped s m n) in
  if sk : bool then ret t else
  let! l := lift (cell_fanin m n) in
  let! cs := lift (opt_map (fun c => t.1 !! c) l) in
  let! d := lift (dt !! n) in
  let! f := lift (cell_function m n) in
  match d with
  | DNone | DPos => let! x := kcreate_node cs f in ret (<[n := x]> t.1, t.2)
  | DNeg => let! x := kcreate_node cs (tt_not f) in ret (<[n := x]> t.1, t.2)
  | DMixed =>
      let! x := kcreate_node cs f in
      let! y := kcreate_node cs (tt_not f) in
      ret (<[n := x]> t.1, <[n := y]> t.2)
  end.
(* network_to_klut.hpp:178-189 *)
Definition collapse_po (dt : list driver) (t : sigs) (f : signal) : M klut unit :=
  let! d := lift (dt !! sidx f) in
  let! x := lift (match d with DMixed => if scompl f then t.2 !! sidx f else t.1 !! sidx f | _ => t.1 !! sidx f end) in
  kcreate_po x ;;; ret Datatypes.tt.
(* network_to_klut.hpp:38-199, and 214-379 with another node order *)
Definition collapse (s : aig) (m : mview) (order : list nat) : M klut unit :=
  let! dt := lift (drivers s m) in
  let! t0 := lift (collapse_constant dt (repeat 0 (size s), repeat 0 (size s))) in
  let! t1 := foldM (collapse_pi dt) t0 (pis s) in
  let! t2 := foldM (collapse_cell s m dt) t1 order in
  mapM (collapse_po dt t2) (pos s) ;;; ret Datatypes.tt.
(* network_to_klut.hpp:384-411: nullopt for an unmapped network with gates *)
Definition to_klut (s : aig) (m : mview) (order : option (list nat)) : option (option klut) :=
  if negb (has_mapping m) && negb (bool_decide (u32 (ne s) = 0%N)) then Some None
  else l ← order; '(_, d) ← collapse s m l klut_init; Some (Some d).
Definition network_to_klut (s : aig) (m : mview) : option (option klut) := to_klut s m (aig_topo s).
(* network_to_klut.hpp:414-443: gates in index order *)
Definition choice_to_klut (s : aig) (m : mview) : option (option klut) := to_klut s m (gates s).

(* convert_to_aig.hpp:63-83, 124-147: the sum of products of a function *)
Definition cube_and (leaves : list (option signal)) (n : nat) (c : cube) : M aig signal :=
  let! fs := lift (opt_map (fun i => o ← leaves !! i; o) (seq 0 n)) in (* assert: every leaf is mapped *)
  create_nary_and (concat (imap (fun i f => if get_cmask c i then [if get_cbit c i then f else snot f] else []) fs)).
Definition sop_to_aig (leaves : list (option signal)) (f : tt) : M aig signal :=
  let! cs := lift (isop f) in
  let! ts := mapM (cube_and leaves (nv f)) cs in
  create_nary_or ts.

(* convert_to_aig.hpp:31-93.  The map is a vector of optional signals. *)
Definition conv_pi (t : list (option signal)) (n : nat) : M aig (list (option signal)) :=
  let! x := lift (t !! n) in
  match x with
  | Some _ => fail (* assert *)
  | None => let! f := create_pi in ret (<[n := Some f]> t)
  end.
Definition leaves_of (t : list (option signal)) (l : list nat) : list (option signal) :=
  map (fun c => o ← t !! c; o) l.
Definition kconv_gate (s : klut) (t : list (option signal)) (n : nat) : M aig (list (option signal)) :=
  let! x := lift (kn s !! n) in
  let! f := lift (knode_function s n) in
  let! g := sop_to_aig (leaves_of t (kch x)) f in
  ret (<[n := Some g]> t).
Definition conv_po (t : list (option signal)) (f : signal) : M aig unit :=
  let! o := lift (t !! sidx f) in
  let! g := lift o in
  create_po (if scompl f then snot g else g) ;;; ret Datatypes.tt.
Definition convert_klut_m (s : klut) : M aig unit :=
  let! t := foldM conv_pi (<[1 := Some (Sig 0 true)]> (<[0 := Some (Sig 0 false)]> (repeat None (ksize s)))) (kpis s) in
  let! gs := lift (kgates s) in
  let! t := foldM (kconv_gate s) t gs in
  mapM (fun f => conv_po t (Sig f false)) (kpos s) ;;; ret Datatypes.tt.
Definition convert_klut_to_aig (nb : nat) (s : klut) : option aig :=
  '(_, d) ← convert_klut_m s (aig_init_n nb); Some d.

(* convert_to_aig.hpp:96-178 *)
Definition mconv_gate (m : mview) (t : list (option signal)) (n : nat) : M aig (list (option signal)) :=
  let! r := lift (is_cell_root m n) in
  if r : bool then
    let! f := lift (cell_function m n) in
    let! l := lift (cell_fanin m n) in
    let! g := sop_to_aig (leaves_of t l) f in
    ret (<[n := Some g]> t)
  else ret t.
Definition convert_mapped_m (s : aig) (m : mview) : M aig unit :=
  let! t := foldM conv_pi (<[0 := Some (Sig 0 false)]> (repeat None (size s))) (pis s) in
  let! gs := lift (gates s) in
  let! t := foldM (mconv_gate m) t gs in
  mapM (conv_po t) (pos s) ;;; ret Datatypes.tt.
Definition convert_mapped_graph_to_aig (nb : nat) (s : aig) (m : mview) : option aig :=
  '(_, d) ← convert_mapped_m s m (aig_init_n nb); Some d.

(* ---- specification ---- *)
(* what a history of operations means: leaves of the mapped nodes, and the
   function stored for each node *)
Definition upd {A} (n : nat) (x : A) (f : nat -> A) : nat -> A := fun k => if decide (k = n) then x else f k.
Definition cells_step (c : nat -> option (list nat)) (o : mop) : nat -> option (list nat) :=
  match o with
  | MAdd n l => upd n (Some l) c
  | MRemove n => upd n None c
  | MClear => fun _ => None
  | MSet _ _ => c
  end.
Definition cells (ops : list mop) : nat -> option (list nat) := fold_left cells_step ops (fun _ => None).
Definition functions_step (g : nat -> tt) (o : mop) : nat -> tt :=
  match o with MSet n f => upd n f g | _ => g end.
Definition functions (ops : list mop) : nat -> tt := fold_left functions_step ops (fun _ => tt_const 0 false).

(* arguments are nodes of the network and well-formed tables *)
Definition mop_ok (size : nat) (o : mop) : Prop :=
  match o with
  | MAdd n l => n < size /\ Forall (fun c => c < size) l
  | MRemove n => n < size
  | MClear => True
  | MSet n f => n < size /\ tt_wf f
  end.
(* words and tables an operation may add *)
Definition mop_words (o : mop) : nat := match o with MAdd _ l => S (length l) | _ => 0 end.
Definition mop_tables (o : mop) : nat := match o with MSet _ _ => 1 | _ => 0 end.

(* [kcomputes d env l]: under the input values env, the outputs of d are l *)
Definition kcomputes (d : klut) (env : nat -> bool) (l : list bool) : Prop :=
  exists v, kvaluation d env v /\ l = map v (kpos d).

(* c is a proper predecessor of n *)
Definition below (s : aig) (n c : nat) : Prop := tc (fanin s) n c.

(* a node whose value is provided: constant, input or root of a cell *)
Definition root (s : aig) (m : mview) (n : nat) : Prop := is_gate s n /\ is_cell_root m n = Some true.
Definition provided (s : aig) (m : mview) (n : nat) : Prop := n = 0 \/ n ∈ ins s \/ root s m n.
(* The mapping is a cover: outputs are provided, and every cell has provided
   leaves that precede its root in the sense of [before], and a function
   that gives the value of the root. *)
Record cover (s : aig) (m : mview) (before : nat -> nat -> Prop) : Prop := {
  cov_map : length (mm m) >= size s;
  cov_po : forall f, f ∈ pos s -> provided s m (sidx f);
  cov_cell : forall n, root s m n -> exists l f, cell_fanin m n = Some l /\ cell_function m n = Some f /\
    tt_wf f /\ nv f = length l /\
    (forall c, c ∈ l -> provided s m c /\ before c n) /\
    (forall env v, valuation s env v -> v n = tt_eval f (fun k => match l !! k with Some c => v c | None => false end))
}.
