(* Model of include/database/network/klut_network.hpp. *)
From Verif Require Import Base Aig Tt TtCache.

(* klut_network.hpp:47-60: children, data[1].h1 (function literal), data[0].h1
   (fan-out count), data[0].h2 (value; doubles as the input marker).
   Simplification: data[1].h2 (visited) is not modelled. *)
Record knode := KNode { kch : list nat; kfn : N; kfo : N; kvl : N }.
Record klut := Klut {
  kn : list knode;       (* nodes *)
  kins : list nat;       (* inputs *)
  kouts : list nat;      (* outputs *)
  knpi : nat; knpo : nat;
  klat : list N;
  kc : cache             (* data.cache *)
}.
Definition ksize (s : klut) : nat := length (kn s).

(* kitty::create_from_words for a small table: bits of a literal word *)
Definition tt_word (n : nat) (w : N) : tt := tt_tab n (fun m => N.testbit w (N.of_nat m)).

Definition cache_inserts (l : list tt) (c : cache) : cache :=
  fold_left (fun c t => snd (cache_insert t c)) l c.

(* klut_network.hpp:68-140: two constant nodes and ten reserved functions *)
Definition klut_init : klut :=
  Klut [KNode [] 0 0 0; KNode [] 1 0 0] [] [] 0 0 []
    (cache_inserts
       [tt_word 0 0; tt_word 1 0x1; tt_word 2 0x8; tt_word 2 0xe; tt_word 2 0x4;
        tt_word 2 0xd; tt_word 2 0x6; tt_word 3 0xe8; tt_word 3 0xd8; tt_word 3 0x96]
       cache_empty).

Definition set_kn (s : klut) x := Klut x (kins s) (kouts s) (knpi s) (knpo s) (klat s) (kc s).
Definition set_kc (s : klut) x := Klut (kn s) (kins s) (kouts s) (knpi s) (knpo s) (klat s) x.

(* klut_network.hpp:145-148 *)
Definition kget_constant (b : bool) : nat := if b then 1 else 0.

(* nodes[f].data[0].h1++ *)
Definition kincr (f : nat) (s : klut) : option klut :=
  n ← kn s !! f;
  Some (set_kn s (<[f := KNode (kch n) (kfn n) (u32 (kfo n + 1)) (kvl n)]> (kn s))).

(* klut_network.hpp:150-163, 178-190 *)
Definition kcreate_pi : M klut nat := fun s =>
  Some (ksize s, Klut (kn s ++ [KNode [] 2 0 1]) (kins s ++ [ksize s]) (kouts s)
                      (S (knpi s)) (knpo s) (klat s) (kc s)).
Definition kcreate_ro : M klut nat := fun s =>
  Some (ksize s, Klut (kn s ++ [KNode [] 2 0 3]) (kins s ++ [ksize s]) (kouts s)
                      (knpi s) (knpo s) (klat s) (kc s)).
(* klut_network.hpp:165-176, 192-202 *)
Definition kcreate_po (f : nat) : M klut nat := fun s =>
  s1 ← kincr f s;
  Some (length (kouts s), Klut (kn s1) (kins s1) (kouts s1 ++ [f]) (knpi s1) (S (knpo s1)) (klat s1) (kc s1)).
Definition kcreate_ri (f : nat) (reset : N) : M klut nat := fun s =>
  s1 ← kincr f s;
  Some (length (kouts s), Klut (kn s1) (kins s1) (kouts s1 ++ [f]) (knpi s1) (knpo s1) (klat s1 ++ [reset]) (kc s1)).

(* klut_network.hpp:217-233 *)
Definition kis_ci (s : klut) (n : nat) : option bool :=
  x ← kn s !! n; Some (bool_decide (kvl x = 1%N) || bool_decide (kvl x = 3%N)).
Definition kis_pi (s : klut) (n : nat) : option bool :=
  x ← kn s !! n; Some (bool_decide (kvl x = 1%N)).

Fixpoint kincrs (l : list nat) (s : klut) : option klut :=
  match l with
  | [] => Some s
  | f :: r => s1 ← kincr f s; kincrs r s1
  end.

(* klut_network.hpp:326-359 _create_node (structural hashing is commented out
   in the code) *)
Definition kcreate_raw (children : list nat) (lit : N) : M klut nat := fun s =>
  let index := ksize s in
  s1 ← kincrs children (set_kn s (kn s ++ [KNode children lit 0 0]));
  Some (index, s1).

(* klut_network.hpp:361-369 create_node; the assertion is a None *)
Definition kcreate_node (children : list nat) (f : tt) : M klut nat := fun s =>
  match children with
  | [] => if decide (nv f = 0) then Some (kget_constant (negb (tt_is_const0 f)), s) else None
  | _ => let '(lit, c) := cache_insert f (kc s) in kcreate_raw children lit (set_kc s c)
  end.

(* klut_network.hpp:248-322 *)
Definition kcreate_not (a : nat) : M klut nat := kcreate_raw [a] 3.
Definition kcreate_and (a b : nat) : M klut nat := kcreate_raw [a; b] 4.
Definition kcreate_or (a b : nat) : M klut nat := kcreate_raw [a; b] 6.
Definition kcreate_lt (a b : nat) : M klut nat := kcreate_raw [a; b] 8.
Definition kcreate_le (a b : nat) : M klut nat := kcreate_raw [a; b] 11.
Definition kcreate_xor (a b : nat) : M klut nat := kcreate_raw [a; b] 12.
Definition kcreate_maj (a b c : nat) : M klut nat := kcreate_raw [a; b; c] 14.
Definition kcreate_ite (a b c : nat) : M klut nat := kcreate_raw [a; b; c] 16.
Definition kcreate_xor3 (a b c : nat) : M klut nat := kcreate_raw [a; b; c] 18.
Definition kcreate_nary_and (l : list nat) : M klut nat :=
  tree_reduceM (S (length l)) kcreate_and (kget_constant true) l.
Definition kcreate_nary_or (l : list nat) : M klut nat :=
  tree_reduceM (S (length l)) kcreate_or (kget_constant false) l.
Definition kcreate_nary_xor (l : list nat) : M klut nat :=
  tree_reduceM (S (length l)) kcreate_xor (kget_constant false) l.

(* klut_network.hpp:479-483 *)
Definition knode_function (s : klut) (n : nat) : option tt :=
  x ← kn s !! n; cache_get (kfn x) (kc s).

(* klut_network.hpp:716-727: Boolean compute.  The index is built with the
   first value as the most significant bit, in a uint32_t. *)
Definition kindex (vs : list bool) : N :=
  fold_left (fun i b => N.lxor (u32 (2 * i)) (N.b2n b)) vs 0%N.
Definition kcompute_bool (s : klut) (n : nat) (vs : list bool) : option bool :=
  f ← knode_function s n; Some (get_bit f (N.to_nat (kindex vs))).

(* klut_network.hpp:729-759: truth-table compute; all operands have the same
   number of variables as the first one *)
Fixpoint kpattern (i j : nat) (tts : list tt) : nat :=
  match tts with
  | [] => 0
  | t :: r => Nat.b2n (get_bit t i) * 2 ^ j + kpattern i (S j) r
  end.
Definition kcompute_tt (s : klut) (n : nat) (tts : list tt) : option tt :=
  x ← kn s !! n;
  t0 ← head tts;
  if decide (length tts = length (kch x)) then
    f ← cache_get (kfn x) (kc s);
    Some (tt_tab (nv t0) (fun i => get_bit f (kpattern i 0 tts)))
  else None.

(* klut_network.hpp:380-421 substitute_node.  Simplification: nodes are visited
   in index order and each child slot once, as in the code; the events are not
   modelled. *)
Definition kreplace (old new : nat) (l : list nat) : list nat :=
  map (fun c => if decide (c = old) then new else c) l.
Definition kcount (old : nat) (l : list nat) : nat := length (filter (fun c => c = old) l).
Definition ksubst_nodes (old new : nat) (l : list knode) : list knode :=
  map (fun x => KNode (kreplace old new (kch x)) (kfn x) (kfo x) (kvl x)) l.
Definition ksubstitute (old new : nat) (s : klut) : option klut :=
  let cnt := sum_list (map (fun x => kcount old (kch x)) (kn s)) + kcount old (kouts s) in
  let l1 := ksubst_nodes old new (kn s) in
  x ← l1 !! new;
  let l2 := <[new := KNode (kch x) (kfn x) (u32 (kfo x + N.of_nat cnt)) (kvl x)]> l1 in
  y ← l2 !! old;
  Some (Klut (<[old := KNode (kch y) (kfn y) 0 (kvl y)]> l2) (kins s)
             (kreplace old new (kouts s)) (knpi s) (knpo s) (klat s) (kc s)).

(* klut_network.hpp:763-776 *)
Definition kclear_values (s : klut) : klut :=
  set_kn s (map (fun x => KNode (kch x) (kfn x) (kfo x) 0) (kn s)).

(* The creation API. *)
Inductive kop : Type :=
| KPi | KRo | KPo (f : nat) | KRi (f : nat) (reset : N)
| KNot (a : nat) | KAnd (a b : nat) | KOr (a b : nat) | KLt (a b : nat) | KLe (a b : nat)
| KXor (a b : nat) | KMaj (a b c : nat) | KIte (a b c : nat) | KXor3 (a b c : nat)
| KNaryAnd (l : list nat) | KNaryOr (l : list nat) | KNaryXor (l : list nat)
| KLut (l : list nat) (f : tt).
Definition kstep (o : kop) : M klut nat :=
  match o with
  | KPi => kcreate_pi | KRo => kcreate_ro
  | KPo f => kcreate_po f ;;; ret f
  | KRi f r => kcreate_ri f r ;;; ret f
  | KNot a => kcreate_not a | KAnd a b => kcreate_and a b | KOr a b => kcreate_or a b
  | KLt a b => kcreate_lt a b | KLe a b => kcreate_le a b | KXor a b => kcreate_xor a b
  | KMaj a b c => kcreate_maj a b c | KIte a b c => kcreate_ite a b c
  | KXor3 a b c => kcreate_xor3 a b c
  | KNaryAnd l => kcreate_nary_and l | KNaryOr l => kcreate_nary_or l
  | KNaryXor l => kcreate_nary_xor l
  | KLut l f => kcreate_node l f
  end.
Definition koperands (o : kop) : list nat :=
  match o with
  | KPi | KRo => []
  | KPo a | KRi a _ | KNot a => [a]
  | KAnd a b | KOr a b | KLt a b | KLe a b | KXor a b => [a; b]
  | KMaj a b c | KIte a b c | KXor3 a b c => [a; b; c]
  | KNaryAnd l | KNaryOr l | KNaryXor l | KLut l _ => l
  end.
