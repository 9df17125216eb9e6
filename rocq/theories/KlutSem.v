(* Specification vocabulary for LUT networks. *)
From Verif Require Import Base Aig Tt TtCache Klut.

(* Values of all nodes when input k has value env k.  The gates are the nodes
   with index > 1 that are not marked as inputs. *)
Record kvaluation (s : klut) (env : nat -> bool) (v : nat -> bool) : Prop := {
  kv_0 : v 0 = false;
  kv_1 : v 1 = true;
  kv_in : forall k n, kins s !! k = Some n -> v n = env k;
  kv_gate : forall n x f, 1 < n -> kn s !! n = Some x -> kis_ci s n = Some false ->
     cache_get (kfn x) (kc s) = Some f ->
     v n = tt_eval f (fun k => match kch x !! k with Some c => v c | None => false end)
}.

(* arguments of create_node: a well-formed table with one variable per child *)
Definition kargs_ok (o : kop) : Prop :=
  match o with KLut l f => tt_wf f /\ nv f = length l | _ => True end.

(* The cache literals are 32-bit, so at most 2^31 functions can be stored. *)
Definition kroom (s : klut) : Prop := (N.of_nat (length (cdata (kc s))) < 2 ^ 31)%N.

(* Reachable LUT networks. *)
Inductive kreachable : klut -> Prop :=
| kreach_init : kreachable klut_init
| kreach_step s o r s' :
    kreachable s -> Forall (fun c => c < ksize s) (koperands o) -> kargs_ok o -> kroom s ->
    kstep o s = Some (r, s') -> kreachable s'.

Definition kop_value (o : kop) (val : nat -> bool) : option bool :=
  match o with
  | KPi | KRo | KPo _ | KRi _ _ => None
  | KNot a => Some (negb (val a))
  | KAnd a b => Some (val a && val b)
  | KOr a b => Some (val a || val b)
  | KLt a b => Some (negb (val a) && val b)
  | KLe a b => Some (implb (val a) (val b))
  | KXor a b => Some (xorb (val a) (val b))
  | KMaj a b c => Some ((val a && val b) || (val a && val c) || (val b && val c))
  | KIte a b c => Some (if val a then val b else val c)
  | KXor3 a b c => Some (xorb (val a) (xorb (val b) (val c)))
  | KNaryAnd l => Some (forallb val l)
  | KNaryOr l => Some (existsb val l)
  | KNaryXor l => Some (Nat.odd (length (filter (fun f => val f = true) l)))
  | KLut l f => Some (tt_eval f (fun k => match l !! k with Some c => val c | None => false end))
  end.
