(* Model of the replacement phase of rewriting:
   include/operations/optimization/rewrite.hpp:131-170, 298-332.

   The state is the network with the value fields of its nodes (RefDeref). *)
From Verif Require Import Base Aig AigSem Topo Clean Subst RefDeref.

(* rewrite.hpp:151-163 initialize_fanouts: for every node, the gates that use it
   (with the polarity of the use), then the primary outputs *)
Definition gate_uses (s : aig) (m n : nat) : list signal :=
  match ks s !! n with
  | Some (a, b) =>
      if decide (n = 0 \/ a = b \/ is_dead s n = Some true) then []
      else (if decide (sidx a = m) then [Sig n (scompl a)] else []) ++ (if decide (sidx b = m) then [Sig n (scompl b)] else [])
  | None => []
  end.
Definition recorded_fanouts (s : aig) (m : nat) : list signal :=
  flat_map (gate_uses s m) (seq 0 (size s)) ++ filter (fun po => sidx po = m) (pos s).

(* rewrite.hpp:307-317: only the first output driven by the node *)
Fixpoint first_po (old : nat) (new : signal) (l : list signal) : option (list signal) :=
  match l with
  | [] => None
  | po :: l' => if decide (sidx po = old) then Some (Sig (sidx new) (xorb (scompl po) (scompl new)) :: l')
                else l'' ← first_po old new l'; Some (po :: l'')
  end.

(* rewrite.hpp:321-329 with aig_network.hpp:1127-1143: the children of one
   recorded fanout *)
Definition rewire (old : nat) (new : signal) (_ : unit) (sfo : signal) : M aig unit := fun s =>
  k ← ks s !! sidx sfo;
  Some (tt, set_key (sidx sfo) (redirect old new k.1, redirect old new k.2) s).

(* rewrite.hpp:298-332 local_replacement *)
Definition local_replacement (fanouts : nat -> list signal) (old : nat) (new : signal) : M (aig * values) unit := fun st =>
  let '(s, v) := st in
  '(_, v1) ← deref_node_recursive s old v;
  '(_, v2) ← ref_node_recursive s old v1;
  match first_po old new (pos s) with
  | Some l => Some (tt, (set_outs s (l ++ drop (npo s) (outs s)), v2))
  | None => '(_, s') ← foldM (rewire old new) tt (fanouts old) s; Some (tt, (s', v2))
  end.

(* rewrite.hpp:140-146: the chosen replacements, in the order of the nodes *)
Definition replace_all (fanouts : nat -> list signal) (l : list (nat * signal)) : M (aig * values) unit :=
  foldM (fun _ c => if decide (c.1 = sidx c.2) then ret tt else local_replacement fanouts c.1 c.2) tt l.

(* rewrite.hpp:140-148 with the values of initialize_reference (168-173) *)
Definition replacement_phase (buckets : nat) (fanouts : nat -> list signal) (l : list (nat * signal)) (s : aig) (v : values) : option aig :=
  '(_, (s', _)) ← replace_all fanouts l (s, v);
  cleanup_dangling buckets s' false false.

(* ---- specification ---- *)
(* no gate has both the node and (in the matching polarity) its replacement as
   fanins *)
Definition no_collision (s : aig) (old : nat) (new : signal) : Prop := forall n a b c,
  ks s !! n = Some (a, b) -> ~ (a = Sig old c /\ b = sxor new c) /\ ~ (b = Sig old c /\ a = sxor new c).
(* a replacement that may be made *)
Definition replaceable (s : aig) (old : nat) (new : signal) : Prop :=
  is_gate s old /\ valid s new /\ equivalent s old new /\ no_collision s old new /\ ~ rtc (fanin s) (sidx new) old.
(* a list of replacements each of which may be made in the network the earlier
   ones lead to *)
Inductive harmless (fanouts : nat -> list signal) : list (nat * signal) -> aig -> Prop :=
| harmless_nil s : harmless fanouts [] s
| harmless_skip c l s : c.1 = sidx c.2 -> harmless fanouts l s -> harmless fanouts (c :: l) s
| harmless_step c l s : replaceable s c.1 c.2 ->
    (forall s' v v', local_replacement fanouts c.1 c.2 (s, v) = Some (tt, (s', v')) -> harmless fanouts l s') ->
    harmless fanouts (c :: l) s.
