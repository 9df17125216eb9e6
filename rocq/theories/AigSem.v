(* Specification vocabulary for AIGs, independent of how networks are built. *)
From Verif Require Import Base Aig.

(* Value of a signal under a valuation of the nodes. *)
Definition sval (v : nat -> bool) (f : signal) : bool := xorb (v (sidx f)) (scompl f).

(* [valuation s env v]: v is the value of every node of network s when the k-th
   combinational input has value env k: the constant node is false, inputs have
   the assigned values and every AND node is the conjunction of its fanins. *)
Record valuation (s : aig) (env : nat -> bool) (v : nat -> bool) : Prop := {
  val_const : v 0 = false;
  val_input : forall k n, ins s !! k = Some n -> v n = env k;
  val_gate : forall n a b, ks s !! n = Some (a, b) -> n <> 0 -> a <> b ->
             v n = sval v a && sval v b
}.

(* A signal of the network: constants, inputs and gates are the valid indices. *)
Definition valid (s : aig) (f : signal) : Prop := sidx f < size s.

(* Networks reachable through the creation API, with operands that are signals
   of the network at the time of the call.  The hash table starts with any
   positive number of buckets (the code uses 10000, [aig_init]). *)
Inductive reachable : aig -> Prop :=
| reach_init buckets : 0 < buckets -> reachable (aig_init_n buckets)
| reach_step s o r s' :
    reachable s -> Forall (valid s) (operands o) -> step o s = Some (r, s') -> reachable s'.

(* AND nodes: not the constant, not an input. *)
Definition is_gate (s : aig) (n : nat) : Prop :=
  exists a b, ks s !! n = Some (a, b) /\ n <> 0 /\ a <> b.

(* m is a fanin of the AND node n *)
Definition fanin (s : aig) (n m : nat) : Prop :=
  exists a b, ks s !! n = Some (a, b) /\ n <> 0 /\ a <> b /\ (m = sidx a \/ m = sidx b).

(* The structure every acyclic network has, whatever calls (creation,
   substitution, rewiring) it results from: node 0 is the constant, the inputs
   are distinct nodes that store their position, all other nodes have two
   different fanins, and no node depends on itself.  Indices need not be
   topologically ordered, gates may be dead, duplicated or trivial. *)
Record network (s : aig) : Prop := {
  net_const : ks s !! 0 = Some (Sig 0 false, Sig 0 false);
  net_in : forall k n, ins s !! k = Some n ->
    n <> 0 /\ ks s !! n = Some (sig_of_data k, sig_of_data k);
  net_ci : forall n a, ks s !! n = Some (a, a) -> n = 0 \/ n ∈ ins s;
  net_gate : forall n m, fanin s n m -> m < size s;
  net_acyclic : exists rank : nat -> nat, forall n m, fanin s n m -> rank m < rank n;
  net_out : Forall (valid s) (outs s);
  net_npi : npi s <= length (ins s);
  net_npo : npo s <= length (outs s);
  net_fo : length (fo s) = size s
}.

(* Number of references to node n: AND fanins plus outputs. *)
Definition count_sig (n : nat) (f : signal) : nat := if decide (sidx f = n) then 1 else 0.
Definition gate_refs (n : nat) (k : key) : nat :=
  if decide (k.1 = k.2) then 0 else count_sig n k.1 + count_sig n k.2.
Definition references (s : aig) (n : nat) : nat :=
  sum_list (map (gate_refs n) (ks s)) + sum_list (map (count_sig n) (outs s)).

(* Executable evaluation in index order. *)
Definition key_val (env : nat -> bool) (vs : list bool) (k : key) : bool :=
  match vs with
  | [] => false
  | _ => if decide (k.1 = k.2) then env (sdata k.1)
         else sval (fun n => nth n vs false) k.1 && sval (fun n => nth n vs false) k.2
  end.
Fixpoint evl (env : nat -> bool) (vs : list bool) (kl : list key) : list bool :=
  match kl with
  | [] => vs
  | k :: r => evl env (vs ++ [key_val env vs k]) r
  end.
Definition ev (s : aig) (env : nat -> bool) (n : nat) : bool := nth n (evl env [] (ks s)) false.

(* The Boolean function each creation call is named after, in terms of the
   values of its operand signals ([None] for inputs and outputs). *)
Definition op_value (o : op) (val : signal -> bool) : option bool :=
  match o with
  | OpPi | OpRo | OpPo _ | OpRi _ _ => None
  | OpAnd a b => Some (val a && val b)
  | OpNand a b => Some (negb (val a && val b))
  | OpOr a b => Some (val a || val b)
  | OpNor a b => Some (negb (val a || val b))
  | OpLt a b => Some (negb (val a) && val b)
  | OpLe a b => Some (implb (val a) (val b))
  | OpXor a b => Some (xorb (val a) (val b))
  | OpXnor a b => Some (Bool.eqb (val a) (val b))
  | OpIte c t e => Some (if val c then val t else val e)
  | OpMaj a b c => Some ((val a && val b) || (val a && val c) || (val b && val c))
  | OpXor3 a b c => Some (xorb (val a) (xorb (val b) (val c)))
  | OpNaryAnd l => Some (forallb val l)
  | OpNaryOr l => Some (existsb val l)
  | OpNaryXor l => Some (Nat.odd (length (filter (fun f => val f = true) l)))
  end.

(* Histories: the calls made so far with their results, and the state. *)
Inductive hist : list (op * signal) -> aig -> Prop :=
| hist_init buckets : 0 < buckets -> hist [] (aig_init_n buckets)
| hist_step h s o r s' :
    hist h s -> Forall (valid s) (operands o) -> step o s = Some (r, s') ->
    hist (h ++ [(o, r)]) s'.

(* [later s s']: s' results from s by further creation calls. *)
Inductive later (s : aig) : aig -> Prop :=
| later_refl : later s s
| later_step s' o r s'' :
    later s s' -> Forall (valid s') (operands o) -> step o s' = Some (r, s'') -> later s s''.

Definition is_pi_op (o : op) : bool := match o with OpPi => true | _ => false end.
Definition is_ro_op (o : op) : bool := match o with OpRo => true | _ => false end.
Definition is_po_op (o : op) : bool := match o with OpPo _ => true | _ => false end.
Definition is_ri_op (o : op) : bool := match o with OpRi _ _ => true | _ => false end.
Definition is_in_op (o : op) : bool := is_pi_op o || is_ro_op o.
Definition is_out_op (o : op) : bool := is_po_op o || is_ri_op o.

(* Results of the calls of one kind, in call order. *)
Definition results (p : op -> bool) (h : list (op * signal)) : list signal :=
  map snd (List.filter (fun x => p x.1) h).

(* Every call of kind p was made before every call of kind q. *)
Definition calls_before (p q : op -> bool) (h : list (op * signal)) : Prop :=
  forall i j x y, h !! i = Some x -> h !! j = Some y -> p x.1 = true -> q y.1 = true -> i < j.

(* Histories of the hash table alone; L lists the node indices that should be
   in the table.  Keys in the table are pairwise distinct. *)
Inductive table_hist : aig -> list nat -> Prop :=
| th_empty s n :
    0 < n -> hs s = repeat 0 n -> length (nx s) = length (ks s) -> ne s = 0%N ->
    table_hist s []
| th_insert s L i k s' :
    table_hist s L -> ks s !! i = Some k -> i <> 0 -> i ∉ L ->
    (forall j, j ∈ L -> ks s !! j <> Some k) ->
    hash_insert k i s = Some s' -> table_hist s' (i :: L)
| th_erase s L i k s' :
    table_hist s L -> i ∈ L -> ks s !! i = Some k ->
    hash_erase k s = Some s' -> table_hist s' (filter (fun j => j <> i) L)
| th_reserve s L sz s' :
    table_hist s L -> 0 < sz -> hash_reserve sz s = Some s' -> table_hist s' L.
