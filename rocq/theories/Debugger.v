(* Model of include/operations/algorithms/debugger.hpp:58-76
   (debug_mapped_aig_by_converted_miter): the mapped network is turned into an AIG
   from the functions of its cells, and compared with the AIG it was made for.
   debug_by_miter (lines 78-96) is in Flow.v; debug_mapped_aig_by_origin (lines
   38-43) is checker_run of Checker.v. *)
From Verif Require Import Base Aig AigSem Topo Clean Tt TtCache Klut KlutSem Isop Cnf Mapping.

(* a missing verdict is dereferenced *)
Definition compare_by_miter (nb : nat) (solve : solver) (s1 s2 : aig) : option bool :=
  m ← miter nb s1 s2;
  match m with
  | None => Some false
  | Some d => '(r, _) ← equivalence_checking solve d; r
  end.
Definition debug_mapped_aig_by_converted_miter (nb : nat) (solve : solver) (s : aig) (m : mview) : option bool :=
  a ← convert_mapped_graph_to_aig nb s m;
  compare_by_miter nb solve a s.

(* ---- specification ---- *)
(* The mapping can be read as a network of LUTs: outputs are provided, cells have
   provided leaves with smaller numbers and functions of as many inputs.  Nothing is
   said about the values of the functions. *)
Record shaped (s : aig) (m : mview) : Prop := {
  sh_map : length (mm m) >= size s;
  sh_po : forall f, f ∈ pos s -> provided s m (sidx f);
  sh_cell : forall n, root s m n -> exists l f, cell_fanin m n = Some l /\ cell_function m n = Some f /\
    tt_wf f /\ nv f = length l /\ forall c, c ∈ l -> provided s m c /\ c < n
}.
(* the values the cells give *)
Record mval (s : aig) (m : mview) (env : nat -> bool) (w : nat -> bool) : Prop := {
  mv_const : w 0 = false;
  mv_input : forall k n, ins s !! k = Some n -> w n = env k;
  mv_cell : forall n l f, root s m n -> cell_fanin m n = Some l -> cell_function m n = Some f ->
    w n = tt_eval f (fun k => match l !! k with Some c => w c | None => false end)
}.
Definition mapped_computes (s : aig) (m : mview) (env : nat -> bool) (l : list bool) : Prop := exists w, mval s m env w /\ l = map (sval w) (pos s).
