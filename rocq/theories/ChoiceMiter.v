(* Model of include/operations/algorithms/choice_miter.hpp.

   The given networks are handles (pointers, [eptr]) to network objects that may
   share their node storage ([estor], an index into a list of storages); the
   visited marks live in the storage.  The std::maps are functions. *)
From Verif Require Import Base Aig AigSem.

Record entry := Entry { eptr : nat; estor : nat }.

Record mst := Mst {
  mmap : nat -> nat -> option nat;   (* id_map of the j-th network *)
  mvis : nat -> nat -> bool;         (* visited mark of a node of a storage *)
  mnew : aig                         (* _aig_new *)
}.
Definition new_op {A} (m : M aig A) : M mst A := fun st =>
  match m (mnew st) with
  | Some (a, s) => Some (a, Mst (mmap st) (mvis st) s)
  | None => None
  end.
(* std::map::insert leaves existing entries alone *)
Definition map_insert (j k v : nat) : M mst unit := fun st =>
  Some (tt, match mmap st j k with
            | Some _ => st
            | None => Mst (fun j' k' => if decide (j' = j /\ k' = k) then Some v else mmap st j' k') (mvis st) (mnew st)
            end).

Section merge.
Variable heap : list aig.
Variable es : list entry.

(* choice_miter.hpp:155-166, 174-184: the first network with the same pointer *)
Fixpoint first_entry (p : nat) (l : list entry) (j : nat) : option nat :=
  match l with
  | [] => None
  | e :: r => if decide (eptr e = p) then Some j else first_entry p r (S j)
  end.
(* find(node_index)->second: dereferences end() if there is no entry *)
Definition get_id (p n : nat) (st : mst) : option nat := j ← first_entry p es 0; mmap st j n.

(* choice_miter.hpp:192-206 create_node *)
Definition create_node (p : nat) (s : aig) (n : nat) : M mst unit := fun st =>
  k ← ks s !! n;
  a ← get_id p (sidx k.1) st;
  b ← get_id p (sidx k.2) st;
  (let! f := new_op (create_and (Sig a (scompl k.1)) (Sig b (scompl k.2))) in
   let! j := lift (first_entry p es 0) in
   map_insert j n (sidx f)) st.

(* choice_miter.hpp:214-238 dfs_recursion_po *)
Fixpoint dfs (fuel : nat) (e : entry) (s : aig) (n : nat) : M mst unit := fun st =>
  match fuel with
  | O => None
  | S fuel' =>
      pi ← is_pi s n;
      if pi : bool then Some (tt, st)
      else if mvis st (estor e) n then Some (tt, st)
      else
        k ← ks s !! n;
        (dfs fuel' e s (sidx k.1) ;;;
         dfs fuel' e s (sidx k.2) ;;;
         create_node (eptr e) s n ;;;
         (fun st => Some (tt, Mst (mmap st)
            (fun i m => if decide (i = estor e /\ m = n) then true else mvis st i m) (mnew st)))) st
  end.

(* choice_miter.hpp:248-252: output i of network j; operator[] inserts a zero for
   unknown nodes *)
Definition add_output (i j : nat) : M mst unit := fun st =>
  e ← es !! j;
  s ← heap !! estor e;
  f ← po_at s i;
  (dfs (S (size s)) e s (sidx f) ;;;
   map_insert j (sidx f) 0 ;;;
   let! st' := get in
   let! m := lift (mmap st' j (sidx f)) in
   new_op (create_po (Sig m (scompl f))) ;;;
   ret tt) st.

(* choice_miter.hpp:102-115: keep every n-th output *)
Fixpoint keep (n count : nat) (l : list signal) : list signal :=
  match l with
  | [] => []
  | f :: r => if decide (count mod n = 0) then f :: keep n (S count) r else keep n (S count) r
  end.

(* choice_miter.hpp:84-90: the asserted agreement of the interfaces *)
Fixpoint same_interface (s0 : aig) (l : list entry) : option bool :=
  match l with
  | [] => Some true
  | e :: r => s ← heap !! estor e;
              ok ← same_interface s0 r;
              Some (bool_decide (npi s = npi s0) && bool_decide (npo s = npo s0) && ok)
  end.

(* choice_miter.hpp:75-137 merge_aigs_to_miter.  [new0] is the member _aig_new.
   The loop counter of line 93 is a uint8_t: with 256 networks and an input the
   loop does not end.  The iterator juggling of line 105-111 is read as: the
   outputs whose position is no multiple of the number of networks are erased. *)
Definition merge (new0 : aig) : option aig :=
  e0 ← es !! 0;
  s0 ← heap !! estor e0;
  if decide (length es = 1) then Some s0
  else
    ok ← same_interface s0 es;
    if negb ok then None
    else if decide (0 < npi s0 /\ 256 <= length es) then None
    else
      '(_, new1) ← mapM (fun _ => create_pi) (seq 0 (npi s0)) new0;
      let map0 := fun (_ k : nat) => if decide (1 <= k <= npi s0) then Some k else None in
      '(_, st) ← mapM (fun i => mapM (fun j => add_output i j) (seq 0 (length es))) (seq 0 (npo s0))
                   (Mst map0 (fun _ _ => false) new1);
      let new := mnew st in
      let outs' := keep (length es) 0 (outs new) in
      Some (Aig (ks new) (nx new) (fo new) (ph new) (ins new) outs' (npi new)
              (npo new - (length (outs new) - length outs')) (lat new) (hs new) (ne new)).
End merge.

(* ---- specification ---- *)
(* The networks given: at least two and at most 255, all combinational, with np
   inputs that were created before all other nodes, and no outputs.  A pointer
   denotes one network. *)
Record mergeable (heap : list aig) (es : list entry) (np no : nat) : Prop := {
  mg_num : 2 <= length es < 256;
  mg_in : 0 < np;
  mg_net : forall e, e ∈ es -> exists s, heap !! estor e = Some s /\ reachable s /\
    ins s = seq 1 np /\ npi s = np /\ npo s = no /\ length (outs s) = no;
  mg_ptr : forall e e', e ∈ es -> e' ∈ es -> eptr e = eptr e' -> estor e = estor e'
}.
