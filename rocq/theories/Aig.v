(* Model of the AIG network: include/database/network/aig_network.hpp and the
   hash-consing storage include/database/network/details/storage.hpp.

   The C++ vector of node structs {children[2], data[2], next} is modelled
   field-wise, as parallel lists [ks] (the two children), [nx] (hash chain
   link), [fo] (data[0].h1: fanout counter with the dead flag in bit 31) and
   [ph] (phase flag of data[1].h2).  data[0].h2 (custom value), data[1].h1
   (visited) and the two mark flags are scratch fields; the algorithms that use
   them are modelled with their own maps.  Event handlers are not modelled.
   Node indices are [nat] instead of 63-bit fields. *)
From Verif Require Import Base.

(* aig_network.hpp:73-157, node.hpp:30-50: a 1-bit complement and an index;
   [sdata] is the union member [data]. *)
Record signal := Sig { sidx : nat; scompl : bool }.
Definition sdata (f : signal) : nat := 2 * sidx f + Nat.b2n (scompl f).
Definition sig_of_data (d : nat) : signal := Sig (Nat.div2 d) (Nat.odd d).
Global Arguments sdata _ : simpl never.
Global Arguments sig_of_data _ : simpl never.

Global Instance signal_eq_dec : EqDecision signal.
Proof. solve_decision. Defined.

(* aig_network.hpp:101-119: operators !, unary +, unary -, ^ *)
Definition snot (f : signal) : signal := Sig (sidx f) (negb (scompl f)).
Definition spos (f : signal) : signal := Sig (sidx f) false.
Definition sneg (f : signal) : signal := Sig (sidx f) true.
Definition sxor (f : signal) (c : bool) : signal := Sig (sidx f) (xorb (scompl f) c).

Notation key := (signal * signal)%type.

(* storage.hpp:42-138 (nodes, inputs, outputs, hash, num_entries) and
   aig_network.hpp aig_storage_data (num_pis, num_pos, latches). *)
Record aig := Aig {
  ks : list key;      (* nodes[i].children *)
  nx : list nat;      (* nodes[i].next *)
  fo : list N;        (* nodes[i].data[0].h1 *)
  ph : list bool;     (* nodes[i].data[1].h2 & F_PHASE *)
  ins : list nat;     (* inputs *)
  outs : list signal; (* outputs *)
  npi : nat;          (* data.num_pis *)
  npo : nat;          (* data.num_pos *)
  lat : list Z;       (* data.latches *)
  hs : list nat;      (* hash *)
  ne : N              (* num_entries *)
}.

Definition set_nx (s : aig) (x : list nat) := Aig (ks s) x (fo s) (ph s) (ins s) (outs s) (npi s) (npo s) (lat s) (hs s) (ne s).
Definition set_fo (s : aig) (x : list N) := Aig (ks s) (nx s) x (ph s) (ins s) (outs s) (npi s) (npo s) (lat s) (hs s) (ne s).
Definition set_ks (s : aig) (x : list key) := Aig x (nx s) (fo s) (ph s) (ins s) (outs s) (npi s) (npo s) (lat s) (hs s) (ne s).
Definition set_outs (s : aig) (x : list signal) := Aig (ks s) (nx s) (fo s) (ph s) (ins s) x (npi s) (npo s) (lat s) (hs s) (ne s).

(* storage.hpp:44-52 and aig_network.hpp:168: constructor.  One value-initialised
   node, the constant, and a table of zero buckets.  The code reserves 10000
   buckets; the model keeps the number as a parameter so that the theorems hold
   for every initial table size. *)
Definition aig_init_n (buckets : nat) : aig :=
  Aig [(Sig 0 false, Sig 0 false)] [0] [0%N] [false] [] [] 0 0 []
      (repeat 0 buckets) 0%N.
Definition aig_init : aig := aig_init_n (N.to_nat 10000).

(* aig_network.hpp:721 size() *)
Definition size (s : aig) : nat := length (ks s).

(* ------------------------------------------------------------------ *)
(* storage.hpp:56-64 abc_hash, with uint64 wrap-around *)
Definition u64 (x : N) : N := (x mod 2 ^ 64)%N.
Global Arguments u64 _ : simpl never.
Definition abc_hash (k : key) (sz : nat) : nat :=
  let '(a, b) := k in
  N.to_nat (u64 (N.of_nat (sidx a) * 7937 + N.of_nat (sidx b) * 2971
                 + N.b2n (scompl a) * 911 + N.b2n (scompl b) * 353)
            mod N.of_nat sz).

(* storage.hpp:69-74: walk of one chain; result 0 = not found. *)
Fixpoint find_chain (fuel : nat) (kl : list key) (nl : list nat) (k : key) (cur : nat) : option nat :=
  match fuel with
  | O => None
  | S fuel' =>
      if decide (cur = 0) then Some 0
      else k' ← kl !! cur;
           if decide (k' = k) then Some cur
           else n ← nl !! cur; find_chain fuel' kl nl k n
  end.

(* storage.hpp:66-75 hash_find; [hs !! key] is None only for an empty table. *)
Definition hash_find (k : key) (s : aig) : option nat :=
  h ← hs s !! abc_hash k (length (hs s));
  find_chain (S (length (ks s))) (ks s) (nx s) k h.

(* storage.hpp:83-90: re-link one chain into the new table *)
Fixpoint rehash_chain (fuel : nat) (kl : list key) (sz : nat)
    (st : list nat * list nat) (cur : nat) : option (list nat * list nat) :=
  match fuel with
  | O => None
  | S fuel' =>
      if decide (cur = 0) then Some st
      else let '(nl, nh) := st in
           nxt ← nl !! cur;
           k ← kl !! cur;
           b ← nh !! abc_hash k sz;
           rehash_chain fuel' kl sz
             (<[cur := b]> nl, <[abc_hash k sz := cur]> nh) nxt
  end.

Fixpoint rehash_all (fuel : nat) (kl : list key) (sz : nat)
    (st : list nat * list nat) (buckets : list nat) : option (list nat * list nat) :=
  match buckets with
  | [] => Some st
  | h :: r => st' ← rehash_chain fuel kl sz st h; rehash_all fuel kl sz st' r
  end.

(* storage.hpp:77-93 hash_reserve *)
Definition hash_reserve (sz : nat) (s : aig) : option aig :=
  if decide (sz = 0) then None (* assert(size > 0) *)
  else '(nl, nh) ← rehash_all (S (length (ks s))) (ks s) sz (nx s, repeat 0 sz) (hs s);
       Some (Aig (ks s) nl (fo s) (ph s) (ins s) (outs s) (npi s) (npo s) (lat s) nh (ne s)).

(* storage.hpp:99: static_cast<uint64_t>(3.1415f * hash.size()).
   Simplification: exact decimal 3.1415 instead of single precision. *)
Definition grow (sz : nat) : nat := N.to_nat (31415 * N.of_nat sz / 10000).

(* storage.hpp:101-104: link node i at the head of its bucket *)
Definition link_head (k : key) (i : nat) (s : aig) : option aig :=
  let b := abc_hash k (length (hs s)) in
  h ← hs s !! b;
  _ ← nx s !! i;
  Some (Aig (ks s) (<[i := h]> (nx s)) (fo s) (ph s) (ins s) (outs s) (npi s) (npo s) (lat s)
            (<[b := i]> (hs s)) (u64 (ne s + 1))).

(* storage.hpp:95-105 hash_insert *)
Definition hash_insert (k : key) (i : nat) (s : aig) : option aig :=
  s1 ← (if decide (2 * N.of_nat (length (hs s)) < ne s)%N
        then hash_reserve (grow (length (hs s))) s else Some s);
  link_head k i s1.

(* storage.hpp:111-115: find the entry and its predecessor *)
Fixpoint erase_walk (fuel : nat) (kl : list key) (nl : list nat) (k : key)
    (pre cur : nat) : option (nat * nat) :=
  match fuel with
  | O => None
  | S fuel' =>
      k' ← kl !! cur;
      n ← nl !! cur;
      if decide (k' = k) then Some (pre, cur)
      else if decide (n = 0) then Some (pre, cur)
      else erase_walk fuel' kl nl k cur n
  end.

(* storage.hpp:107-126 hash_erase, including the assertion that the entry was
   found (line 116; active unless NDEBUG). *)
Definition hash_erase (k : key) (s : aig) : option aig :=
  let b := abc_hash k (length (hs s)) in
  h ← hs s !! b;
  '(pre, cur) ← erase_walk (S (length (ks s))) (ks s) (nx s) k h h;
  k' ← ks s !! cur;
  n ← nx s !! cur;
  if decide (k' = k) then
    let ne' := u64 (ne s + 2 ^ 64 - 1) in
    if decide (cur = h) then
      Some (Aig (ks s) (nx s) (fo s) (ph s) (ins s) (outs s) (npi s) (npo s) (lat s)
                (<[b := n]> (hs s)) ne')
    else
      Some (Aig (ks s) (<[pre := n]> (nx s)) (fo s) (ph s) (ins s) (outs s) (npi s) (npo s)
                (lat s) (hs s) ne')
  else None.

(* ------------------------------------------------------------------ *)
(* aig_network.hpp:775-788, 590: 31-bit fanout counter and dead flag *)
Definition u32 (x : N) : N := (x mod 2 ^ 32)%N.
Global Arguments u32 _ : simpl never.
Definition fanout_size (s : aig) (n : nat) : option N :=
  h ← fo s !! n; Some (h mod 2 ^ 31)%N.
Definition is_dead (s : aig) (n : nat) : option bool :=
  h ← fo s !! n; Some (N.testbit h 31).
Definition incr_fanout (n : nat) (s : aig) : option aig :=
  h ← fo s !! n; Some (set_fo s (<[n := u32 (h + 1)]> (fo s))).
Definition decr_fanout (n : nat) (s : aig) : option (N * aig) :=
  h ← fo s !! n;
  let h' := u32 (h + 2 ^ 32 - 1) in
  Some ((h' mod 2 ^ 31)%N, set_fo s (<[n := h']> (fo s))).

(* aig_network.hpp:255-268 *)
Definition is_ci (s : aig) (n : nat) : option bool :=
  k ← ks s !! n; Some (bool_decide (k.1 = k.2)).
Definition is_pi (s : aig) (n : nat) : option bool :=
  k ← ks s !! n; Some (bool_decide (k.1 = k.2) && bool_decide (sdata k.1 < npi s)).
Definition is_ro (s : aig) (n : nat) : option bool :=
  k ← ks s !! n; Some (bool_decide (k.1 = k.2) && bool_decide (npi s <= sdata k.1)).
(* aig_network.hpp:244 *)
Definition is_combinational (s : aig) : bool :=
  bool_decide (length (ins s) = npi s /\ length (outs s) = npo s).

(* aig_network.hpp:880-914, 916, 936, 958, 980: index accessors (with asserts) *)
Definition ci_at (s : aig) (k : nat) : option nat := ins s !! k.
Definition co_at (s : aig) (k : nat) : option signal := outs s !! k.
Definition pi_at (s : aig) (k : nat) : option nat :=
  if decide (k < npi s) then ins s !! k else None.
Definition po_at (s : aig) (k : nat) : option signal :=
  if decide (k < npo s) then outs s !! k else None.
Definition ro_at (s : aig) (k : nat) : option nat :=
  if decide (k < length (ins s) - npi s) then ins s !! (npi s + k) else None.
Definition ri_at (s : aig) (k : nat) : option signal :=
  if decide (k < length (outs s) - npo s) then outs s !! (npo s + k) else None.
Definition ci_index (s : aig) (n : nat) : option nat :=
  k ← ks s !! n; if decide (k.1 = k.2) then Some (sdata k.1) else None.
Definition ro_to_ri (s : aig) (f : signal) : option signal :=
  k ← ks s !! sidx f; outs s !! (npo s + sdata k.1 - npi s).

(* aig_network.hpp:184 *)
Definition get_constant (b : bool) : signal := Sig 0 b.

(* nodes.emplace_back / push_back of a node with children k *)
Definition push_node (k : key) (s : aig) : aig :=
  Aig (ks s ++ [k]) (nx s ++ [0]) (fo s ++ [0%N]) (ph s ++ [false]) (ins s) (outs s)
      (npi s) (npo s) (lat s) (hs s) (ne s).

(* aig_network.hpp:189-201 *)
Definition create_pi : M aig signal := fun s =>
  let index := size s in
  let d := sig_of_data (length (ins s)) in
  let s1 := push_node (d, d) s in
  Some (Sig index false,
        Aig (ks s1) (nx s1) (fo s1) (ph s1) (ins s1 ++ [index]) (outs s1) (S (npi s1)) (npo s1)
            (lat s1) (hs s1) (ne s1)).

(* aig_network.hpp:215-224 *)
Definition create_ro : M aig signal := fun s =>
  let index := size s in
  let d := sig_of_data (length (ins s)) in
  let s1 := push_node (d, d) s in
  Some (Sig index false,
        Aig (ks s1) (nx s1) (fo s1) (ph s1) (ins s1 ++ [index]) (outs s1) (npi s1) (npo s1)
            (lat s1) (hs s1) (ne s1)).

(* aig_network.hpp:203-213 *)
Definition create_po (f : signal) : M aig nat := fun s =>
  s1 ← incr_fanout (sidx f) s;
  Some (length (outs s1),
        Aig (ks s1) (nx s1) (fo s1) (ph s1) (ins s1) (outs s1 ++ [f]) (npi s1) (S (npo s1))
            (lat s1) (hs s1) (ne s1)).

(* aig_network.hpp:226-236 *)
Definition create_ri (f : signal) (reset : Z) : M aig nat := fun s =>
  s1 ← incr_fanout (sidx f) s;
  Some (length (outs s1),
        Aig (ks s1) (nx s1) (fo s1) (ph s1) (ins s1) (outs s1 ++ [f]) (npi s1) (npo s1)
            (lat s1 ++ [reset]) (hs s1) (ne s1)).

(* aig_network.hpp:746-750: clears the outputs; note that neither the fanout
   counters nor the latches are updated *)
Definition clear_pos (s : aig) : aig :=
  Aig (ks s) (nx s) (fo s) (ph s) (ins s) [] (npi s) 0 (lat s) (hs s) (ne s).

(* aig_network.hpp:315-319: order inputs *)
Definition order (a b : signal) : key :=
  if decide (sidx b < sidx a) then (b, a) else (a, b).

(* aig_network.hpp:290-311 *)
Definition find_and (a b : signal) (s : aig) : option bool :=
  let '(a, b) := order a b in
  if decide (sidx a = sidx b \/ sidx a = 0) then Some true
  else f ← hash_find (a, b) s; Some (bool_decide (f <> 0)).

(* aig_network.hpp:343-366: append a new AND node *)
Definition new_and (a b : signal) : M aig signal := fun s =>
  let index := size s in
  s1 ← hash_insert (a, b) index (push_node (a, b) s);
  pa ← ph s1 !! sidx a;
  pb ← ph s1 !! sidx b;
  let s2 := Aig (ks s1) (nx s1) (fo s1)
                (<[index := xorb pa (scompl a) && xorb pb (scompl b)]> (ph s1))
                (ins s1) (outs s1) (npi s1) (npo s1) (lat s1) (hs s1) (ne s1) in
  s3 ← incr_fanout (sidx a) s2;
  s4 ← incr_fanout (sidx b) s3;
  Some (Sig index false, s4).

(* aig_network.hpp:313-367 (the debug assertion of line 339 is not modelled
   here; see PropSubst for dead entries) *)
Definition create_and (a b : signal) : M aig signal := fun s =>
  let '(a, b) := order a b in
  if decide (sidx a = sidx b) then
    Some (if decide (scompl a = scompl b) then a else get_constant false, s)
  else if decide (sidx a = 0) then
    Some (if scompl a then b else get_constant false, s)
  else
    found ← hash_find (a, b) s;
    if decide (found = 0) then new_and a b s
    else Some (Sig found false, s).

(* aig_network.hpp:369-405 *)
Definition create_nand (a b : signal) : M aig signal :=
  let! f := create_and a b in ret (snot f).
Definition create_or (a b : signal) : M aig signal :=
  let! f := create_and (snot a) (snot b) in ret (snot f).
Definition create_nor (a b : signal) : M aig signal := create_and (snot a) (snot b).
Definition create_lt (a b : signal) : M aig signal := create_and (snot a) b.
Definition create_le (a b : signal) : M aig signal :=
  let! f := create_and a (snot b) in ret (snot f).
Definition create_xor (a b : signal) : M aig signal :=
  let fcompl := xorb (scompl a) (scompl b) in
  let! c1 := create_and (spos a) (sneg b) in
  let! c2 := create_and (spos b) (sneg a) in
  let! f := create_and (snot c1) (snot c2) in
  ret (sxor f (negb fcompl)).
Definition create_xnor (a b : signal) : M aig signal :=
  let! f := create_xor a b in ret (snot f).

(* aig_network.hpp:409-425.  The two inner create_and calls are arguments of
   the outer one, so C++ leaves their order open; the model evaluates left to
   right. *)
Definition create_ite (cond f_then f_else : signal) : M aig signal :=
  let '(cond, f_then, f_else) :=
    if decide (sidx f_then < sidx f_else)
    then (snot cond, f_else, f_then) else (cond, f_then, f_else) in
  let '(f_then, f_else, f_compl) :=
    if scompl f_then then (spos f_then, snot f_else, true)
    else (f_then, f_else, false) in
  let! x := create_and (snot cond) f_else in
  let! y := create_and cond f_then in
  let! f := create_and (snot x) (snot y) in
  ret (sxor f (negb f_compl)).

(* aig_network.hpp:427-435 *)
Definition create_maj (a b c : signal) : M aig signal :=
  let! x := create_and a b in
  let! y := create_and (snot a) (snot b) in
  let! z := create_and c (snot y) in
  create_or x z.
Definition create_xor3 (a b c : signal) : M aig signal :=
  let! x := create_xor a b in create_xor x c.

(* utils/range.hpp:26-45 tree_reduce, in the monad.  Fuel: the recursion halves
   the range, so its length is enough. *)
Fixpoint tree_reduceM {S A} (fuel : nat) (op : A -> A -> M S A) (init : A) (l : list A) : M S A :=
  match fuel with
  | O => fail
  | S fuel' =>
      match l with
      | [] => ret init
      | [x] => ret x
      | [x; y] => op x y
      | _ => let m := length l / 2 in
             let! a := tree_reduceM fuel' op init (take m l) in
             let! b := tree_reduceM fuel' op init (drop m l) in
             op a b
      end
  end.

(* aig_network.hpp:439-452 *)
Definition create_nary_and (l : list signal) : M aig signal :=
  tree_reduceM (S (length l)) create_and (get_constant true) l.
Definition create_nary_or (l : list signal) : M aig signal :=
  tree_reduceM (S (length l)) create_or (get_constant false) l.
Definition create_nary_xor (l : list signal) : M aig signal :=
  tree_reduceM (S (length l)) create_xor (get_constant false) l.

(* ------------------------------------------------------------------ *)
(* The public creation API as a set of operations. *)
Inductive op : Type :=
| OpPi | OpRo
| OpPo (f : signal) | OpRi (f : signal) (reset : Z)
| OpAnd (a b : signal) | OpNand (a b : signal) | OpOr (a b : signal) | OpNor (a b : signal)
| OpLt (a b : signal) | OpLe (a b : signal) | OpXor (a b : signal) | OpXnor (a b : signal)
| OpIte (a b c : signal) | OpMaj (a b c : signal) | OpXor3 (a b c : signal)
| OpNaryAnd (l : list signal) | OpNaryOr (l : list signal) | OpNaryXor (l : list signal).

(* create_po/create_ri return an index; the history does not use it, so the
   recorded result is the driving signal. *)
Definition step (o : op) : M aig signal :=
  match o with
  | OpPi => create_pi | OpRo => create_ro
  | OpPo f => create_po f ;;; ret f
  | OpRi f r => create_ri f r ;;; ret f
  | OpAnd a b => create_and a b | OpNand a b => create_nand a b
  | OpOr a b => create_or a b | OpNor a b => create_nor a b
  | OpLt a b => create_lt a b | OpLe a b => create_le a b
  | OpXor a b => create_xor a b | OpXnor a b => create_xnor a b
  | OpIte a b c => create_ite a b c | OpMaj a b c => create_maj a b c
  | OpXor3 a b c => create_xor3 a b c
  | OpNaryAnd l => create_nary_and l | OpNaryOr l => create_nary_or l
  | OpNaryXor l => create_nary_xor l
  end.

Definition operands (o : op) : list signal :=
  match o with
  | OpPi | OpRo => []
  | OpPo f | OpRi f _ => [f]
  | OpAnd a b | OpNand a b | OpOr a b | OpNor a b | OpLt a b | OpLe a b
  | OpXor a b | OpXnor a b => [a; b]
  | OpIte a b c | OpMaj a b c | OpXor3 a b c => [a; b; c]
  | OpNaryAnd l | OpNaryOr l | OpNaryXor l => l
  end.

Fixpoint run (l : list op) : M aig (list signal) :=
  match l with
  | [] => ret []
  | o :: r => let! f := step o in let! fs := run r in ret (f :: fs)
  end.
