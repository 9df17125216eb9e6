(* Traversals of AIGs and include/operations/algorithms/cleanup.hpp
   (cleanup_dangling, both overloads), miter.hpp. *)
From Coq Require Import Sorting.Sorted.
From Verif Require Import Base Aig AigSem Topo.

(* aig_network.hpp:1079-1117 foreach_fanin *)
Definition fanins (s : aig) (n : nat) : option (list signal) :=
  if decide (n = 0) then Some []
  else ci ← is_ci s n;
       if ci : bool then Some []
       else k ← ks s !! n; Some [k.1; k.2].
Definition aig_fan (s : aig) (n : nat) : option (list nat) :=
  fs ← fanins s n; Some (map sidx fs).

(* aig_network.hpp:1026-1036 foreach_pi, foreach_po *)
Definition pis (s : aig) : list nat := take (npi s) (ins s).
Definition pos (s : aig) : list signal := take (npo s) (outs s).

(* topo_view of an AIG: one constant node, all combinational inputs, then the
   nodes below the combinational outputs.  [marks] and [trav] are the visited
   fields and the traversal number the network happens to have. *)
Definition aig_topo_from (s : aig) (marks : list nat) (trav : nat) : option (list nat) :=
  topo_view (aig_fan s) (size s) (0 :: ins s) (map sidx (outs s)) marks trav.
(* The order does not depend on them (TopoProofs.topo_view_marks), so the
   algorithms use a fresh traversal. *)
Definition aig_topo (s : aig) : option (list nat) := aig_topo_from s (repeat 0 (size s)) 0.
(* topo_view.hpp:110-135: only the cone of one signal *)
Definition aig_topo_cone (s : aig) (f : signal) : option (list nat) :=
  topo_view (aig_fan s) (size s) (0 :: ins s) [sidx f] (repeat 0 (size s)) 0.

(* cleanup.hpp:53-77 and aig_network.hpp:456-462 clone_node: one node; the map
   old_to_new is a vector of signals *)
Definition copy_node (s : aig) (m : list signal) (n : nat) : M aig (list signal) :=
  let! ci := lift (is_ci s n) in
  if bool_decide (n = 0) || ci then ret m
  else
    let! k := lift (ks s !! n) in
    let! a := lift (m !! sidx k.1) in
    let! b := lift (m !! sidx k.2) in
    let! f := create_and (sxor a (scompl k.1)) (sxor b (scompl k.2)) in
    ret (<[n := f]> m).

(* cleanup.hpp:44-48: old_to_new of the inputs, in order *)
Fixpoint assign (ns : list nat) (fs : list signal) (m : list signal) : option (list signal) :=
  match ns, fs with
  | [], [] => Some m
  | n :: ns', f :: fs' => assign ns' fs' (<[n := f]> m)
  | _, _ => None (* leaves exhausted, or the assertion it == end *)
  end.

(* cleanup.hpp:34-188 cleanup_dangling_impl.  node_map starts with
   default-constructed signals (data 0). *)
Definition cleanup_impl (s : aig) (leaves : list signal) : M aig (list signal) :=
  let! m := lift (assign (pis s) leaves (<[0 := get_constant false]> (repeat (Sig 0 false) (size s)))) in
  let! l := lift (aig_topo s) in
  foldM (copy_node s) m l.

(* cleanup.hpp:264-296 clone_inputs *)
Definition clone_inputs (s : aig) (remove_dangling_PIs : bool) : M aig (list signal) :=
  mapM (fun n =>
    let! fs := lift (fanout_size s n) in
    if remove_dangling_PIs && bool_decide (fs = 0%N) then ret (get_constant false) else create_pi) (pis s).

(* cleanup.hpp:298-325 clone_outputs *)
Definition clone_outputs (s : aig) (m : list signal) (remove_redundant_POs : bool) : M aig (list unit) :=
  mapM (fun po =>
    let! f := lift (m !! sidx po) in
    let! d := get in
    let! pi := lift (is_pi d (sidx f)) in
    if remove_redundant_POs && (pi || bool_decide (sidx f = 0)) then ret tt
    else create_po (sxor f (scompl po)) ;;; ret tt) (pos s).

(* cleanup.hpp:384-421 cleanup_dangling(ntk, remove_dangling_PIs,
   remove_redundant_POs) *)
Definition cleanup_m (s : aig) (rdp rrp : bool) : M aig unit :=
  let! cis := clone_inputs s rdp in
  let! m := cleanup_impl s cis in
  clone_outputs s m rrp ;;; ret tt.
Definition cleanup_dangling (buckets : nat) (s : aig) (rdp rrp : bool) : option aig :=
  '(_, d) ← cleanup_m s rdp rrp (aig_init_n buckets); Some d.

(* cleanup.hpp:327-357 cleanup_dangling(ntk, dest, begin, end) *)
Definition cleanup_into (s : aig) (leaves : list signal) : M aig (list signal) :=
  let! m := cleanup_impl s leaves in
  mapM (fun po => let! f := lift (m !! sidx po) in ret (sxor f (scompl po))) (pos s).

(* miter.hpp:40-82; the result option is nullopt *)
Fixpoint xor_pairs (l1 l2 : list signal) : M aig (list signal) :=
  match l1, l2 with
  | x :: r1, y :: r2 => let! f := create_xor x y in let! fs := xor_pairs r1 r2 in ret (f :: fs)
  | _, _ => ret []
  end.
Definition miter_m (s1 s2 : aig) : M aig unit :=
  let! ps := mapM (fun _ => create_pi) (seq 0 (npi s1)) in
  let! os1 := cleanup_into s1 ps in
  let! os2 := cleanup_into s2 ps in
  let! xs := xor_pairs os1 os2 in
  let! f := create_nary_or xs in
  create_po f ;;; ret tt.
Definition miter (buckets : nat) (s1 s2 : aig) : option (option aig) :=
  if decide (npi s1 <> npi s2 \/ npo s1 <> npo s2) then Some None
  else '(_, d) ← miter_m s1 s2 (aig_init_n buckets); Some (Some d).

(* ---- specification ---- *)
(* [computes s env l]: under the input values env, the primary outputs of s are l *)
Definition computes (s : aig) (env : nat -> bool) (l : list bool) : Prop :=
  exists v, valuation s env v /\ l = map (sval v) (pos s).

(* every node reachable from an output through fanins *)
Definition in_use (s : aig) (n : nat) : Prop :=
  exists f, f ∈ outs s /\ rtc (fanin s) (sidx f) n.

(* gates in use have ordered fanins other than the constant, and no two of them
   have the same fanins *)
Record strashed (s : aig) : Prop := {
  str_gate : forall n a b, in_use s n -> ks s !! n = Some (a, b) -> n <> 0 -> a <> b ->
    0 < sidx a < sidx b;
  str_uniq : forall n m a b, in_use s n -> in_use s m -> ks s !! n = Some (a, b) ->
    ks s !! m = Some (a, b) -> a <> b -> n = m
}.

(* [kept ns P l]: l lists in increasing order the positions of ns whose element
   satisfies P *)
Definition kept {A} (ns : list A) (P : A -> Prop) (l : list nat) : Prop :=
  StronglySorted lt l /\ forall k, k ∈ l <-> exists n, ns !! k = Some n /\ P n.
