(* Model of node substitution and deletion in AIGs:
   include/database/network/aig_network.hpp:466-640.
   Event handlers (on_modified, on_delete) are not modelled; the list variant
   substitute_nodes (617-713), which edits its work list from such a handler,
   is not modelled either. *)
From Verif Require Import Base Aig AigSem.

(* aig_network.hpp:535, 482-490 nodes[n].children[0/1] = c *)
Definition set_key (n : nat) (k : key) (s : aig) : aig := set_ks s (<[n := k]> (ks s)).

(* aig_network.hpp:466-535 replace_in_node.  The result is the pair (node,
   signal) the caller has to substitute next, if any. *)
Definition replace_in_node (n old : nat) (new : signal) : M aig (option (nat * signal)) := fun s =>
  k ← ks s !! n;
  if decide (sidx k.1 <> old /\ sidx k.2 <> old) then Some (None, s)
  else
    let first := bool_decide (sidx k.1 = old) in
    let f := sxor new (scompl (if first then k.1 else k.2)) in
    let '(c0, c1) := order (if first then k.2 else k.1) f in
    if decide (sidx c0 = sidx c1) then
      Some (Some (n, if decide (scompl c0 = scompl c1) then c1 else get_constant false), s)
    else if decide (sidx c0 = 0) then
      Some (Some (n, if scompl c0 then c1 else get_constant false), s)
    else
      found ← hash_find (c0, c1) s;
      if decide (found <> 0 /\ found <> old) then Some (Some (n, Sig found false), s)
      else
        s1 ← hash_erase k s;
        s2 ← hash_insert (c0, c1) n (set_key n (c0, c1) s1);
        s3 ← incr_fanout (sidx f) s2;
        Some (None, s3).

(* aig_network.hpp:544-555: one output of the loop of replace_in_outputs *)
Definition redirect (old : nat) (new o : signal) : signal :=
  if decide (sidx o = old) then sxor new (scompl o) else o.

(* aig_network.hpp:537-557 replace_in_outputs; the counter updates of line 552
   are separated from the updates of the outputs *)
Definition replace_in_outputs (old : nat) (new : signal) : M aig unit := fun s =>
  dead ← is_dead s old;
  if dead : bool then Some (tt, s)
  else
    '(_, s1) ← foldM (fun _ o s =>
        if decide (sidx o = old /\ old <> sidx new)
        then s' ← incr_fanout (sidx new) s; Some (tt, s') else Some (tt, s)) tt (outs s) s;
    Some (tt, set_outs s1 (map (redirect old new) (outs s1))).

(* aig_network.hpp:559-587 take_out_node.  Each recursive call comes after a
   live node has been marked dead, so the number of nodes is enough fuel. *)
Fixpoint take_out (fuel : nat) (n : nat) : M aig unit := fun s =>
  match fuel with
  | O => None
  | S fuel' =>
      ci ← is_ci s n;
      dead ← is_dead s n;
      if decide (n = 0 \/ ci = true \/ dead = true) then Some (tt, s)
      else
        k ← ks s !! n;
        s1 ← hash_erase k (set_fo s (<[n := (2 ^ 31)%N]> (fo s)));
        '(_, s2) ← release fuel' (sidx k.1) s1;
        release fuel' (sidx k.2) s2
  end
(* aig_network.hpp:577-585: one fanin *)
with release (fuel : nat) (c : nat) : M aig unit := fun s =>
  match fuel with
  | O => None
  | S fuel' =>
      r ← fanout_size s c;
      if decide (r = 0%N) then Some (tt, s)
      else '(r', s1) ← decr_fanout c s;
           if decide (r' = 0%N) then take_out fuel' c s1 else Some (tt, s1)
  end.

Definition take_out_node (n : nat) : M aig unit := fun s => take_out (2 * size s + 2) n s.

(* aig_network.hpp:607-616: the scan over all gates *)
Definition scan_step (old : nat) (new : signal) (st : list (nat * signal)) (i : nat)
    : M aig (list (nat * signal)) := fun s =>
  ci ← is_ci s i;
  dead ← is_dead s i;
  if decide (ci = true \/ dead = true) then Some (st, s)
  else '(r, s') ← replace_in_node i old new s;
       Some (match r with Some p => p :: st | None => st end, s').

(* aig_network.hpp:602-626: one round of the loop *)
Definition subst_round (old : nat) (new : signal) (st : list (nat * signal))
    : M aig (list (nat * signal)) := fun s =>
  '(st', s1) ← foldM (scan_step old new) st (seq 1 (size s - 1)) s;
  '(_, s2) ← replace_in_outputs old new s1;
  '(_, s3) ← (if decide (old <> sidx new) then take_out_node old s2 else Some (tt, s2));
  Some (st', s3).

(* aig_network.hpp:597-628: the work list, top of the stack first.  The loop has
   no explicit bound in the code; [None] for too little fuel. *)
Fixpoint subst_loop (fuel : nat) (st : list (nat * signal)) : M aig unit := fun s =>
  match st with
  | [] => Some (tt, s)
  | (old, new) :: st' =>
      match fuel with
      | O => None
      | S fuel' => '(st'', s') ← subst_round old new st' s; subst_loop fuel' st'' s'
      end
  end.

(* aig_network.hpp:594-629 substitute_node *)
Definition substitute_node (fuel : nat) (old : nat) (new : signal) : M aig unit :=
  subst_loop fuel [(old, new)].

(* ---- specification ---- *)
(* no gate depends on itself *)
Definition acyclic (s : aig) : Prop :=
  exists rank : nat -> nat, forall n m, fanin s n m -> rank m < rank n.

(* gates that have not been deleted *)
Definition live_gate (s : aig) (n : nat) : Prop := is_gate s n /\ is_dead s n = Some false.
Definition dead (s : aig) (n : nat) : Prop := is_dead s n = Some true.

(* number of references to node n from gates that are not deleted and from the
   outputs *)
Definition live_refs (s : aig) (n : nat) : nat :=
  sum_list (map (fun i => match ks s !! i, is_dead s i with
                          | Some k, Some false => gate_refs n k
                          | _, _ => 0
                          end) (seq 0 (size s)))
  + sum_list (map (count_sig n) (outs s)).

(* Networks that result from any sequence of creation calls and deletions of
   unreferenced gates.  All gate constructors are compositions of create_and.
   Operands are signals of the network that have not been deleted; [small]
   keeps the 31-bit counters from overflowing. *)
Definition usable (s : aig) (f : signal) : Prop := valid s f /\ is_dead s (sidx f) = Some false.
Definition small (s : aig) : Prop :=
  (2 * N.of_nat (size s) + N.of_nat (length (outs s)) < 2 ^ 31)%N.
Inductive pruned : aig -> Prop :=
| pruned_init nb : 0 < nb -> pruned (aig_init_n nb)
| pruned_pi s f s' : pruned s -> create_pi s = Some (f, s') -> small s' -> pruned s'
| pruned_ro s f s' : pruned s -> create_ro s = Some (f, s') -> small s' -> pruned s'
| pruned_po s f k s' : pruned s -> usable s f -> create_po f s = Some (k, s') -> small s' -> pruned s'
| pruned_ri s f r k s' : pruned s -> usable s f -> create_ri f r s = Some (k, s') -> small s' -> pruned s'
| pruned_and s a b f s' : pruned s -> usable s a -> usable s b ->
    create_and a b s = Some (f, s') -> small s' -> pruned s'
| pruned_out s n s' : pruned s -> live_gate s n -> live_refs s n = 0 ->
    take_out_node n s = Some (tt, s') -> pruned s'.

(* Networks that result from creation calls and from substitutions of gates by
   equivalent signals that do not depend on them. *)
Definition equivalent (s : aig) (n : nat) (f : signal) : Prop :=
  forall env v, valuation s env v -> v n = sval v f.
Inductive edited : aig -> Prop :=
| edited_new s : reachable s -> edited s
| edited_subst s old new fuel s' : edited s -> live_gate s old ->
    valid s new -> is_dead s (sidx new) = Some false ->
    equivalent s old new -> ~ rtc (fanin s) (sidx new) old ->
    substitute_node fuel old new s = Some (tt, s') -> edited s'.
