(* Model of the refactoring pass of include/operations/optimization/refactor.hpp:
   initialisation, loop over the gates, replacement, and the updates of the depths
   and fanouts.  Cuts, cones and truth tables are in Refactor.v, the factoring in
   Factor.v, the substitution in Subst.v.

   The maps are functions to options; reading through end() is [None].  Depths
   and gains are natural numbers.  The order in which an unordered_set is visited
   is a parameter.  update_fanouts_info (refactor.hpp:525-534) erases through an
   iterator after an insertion that may have rehashed the map; the model takes the
   iterator to be still valid, as it is in libstdc++. *)
From Verif Require Import Base Aig AigSem Topo Clean Tt Factor Subst RefDeref Refactor.

Record rparams := Rparams { max_leaves : nat; max_cone : nat; depth_up : bool; zero_gain : bool }.
(* refactor.hpp:41-53 *)
Definition default_params : rparams := Rparams 10 16 false false.

Definition fanmap := nat -> option (list nat).
Record rst := Rst { rnet : aig; rval : values; rdep : depths; rfan : fanmap }.

(* ---- initialisation ---- *)
(* refactor.hpp:120-125 init_nodes_defered_size; the value of a node appended
   later is zero *)
Definition init_values (s : aig) : values := fun n =>
  match is_dead s n, fanout_size s n with Some false, Some f => f | _, _ => 0%N end.
(* refactor.hpp:160-165 *)
Definition rdepth_init (s : aig) (m : depths) (n : nat) : option depths :=
  pi ← is_pi s n; Some (if pi : bool then m else insert_new m n 1).
(* refactor.hpp:175-180: one fanin of a node of reverse depth d *)
Definition rdepth_fanin (s : aig) (d : nat) (m : depths) (c : nat) : option depths :=
  pi ← is_pi s c;
  if pi : bool then Some m
  else k ← m c; Some (if decide (k < d + 1) then setv m c (Some (d + 1)) else m).
(* refactor.hpp:168-181 *)
Definition rdepth_step (s : aig) (m : depths) (n : nat) : option depths :=
  pi ← is_pi s n;
  if pi : bool then Some m
  else d ← m n; fs ← aig_fan s n; ofold (rdepth_fanin s d) m fs.
(* refactor.hpp:156-182 compute_reverse_depth_info *)
Definition compute_reverse_depth_info (s : aig) : option depths :=
  l ← aig_topo s;
  m ← ofold (rdepth_init s) (fun _ => None) l;
  ofold (rdepth_step s) m (rev l).

(* refactor.hpp:192-199, 540-547: n becomes a fanout of c *)
Definition add_fanout (n : nat) (m : fanmap) (c : nat) : fanmap :=
  match m c with
  | Some l => setv m c (Some (if decide (n ∈ l) then l else n :: l))
  | None => setv m c (Some [n])
  end.
Definition add_fanouts (s : aig) (m : fanmap) (n : nat) : option fanmap :=
  fs ← aig_fan s n; Some (foldl (add_fanout n) m fs).
(* refactor.hpp:187-200 compute_fanouts_info; foreach_node skips dead nodes *)
Definition compute_fanouts_info (s : aig) : option fanmap :=
  ofold (fun m n => d ← is_dead s n; if d : bool then Some m else add_fanouts s m n) (fun _ => None) (seq 0 (size s)).

(* ---- updates ---- *)
(* refactor.hpp:494-520 recursive_update_depth *)
Fixpoint update_depth_rec (s : aig) (leaves : list nat) (fuel n : nat) : M depths nat := fun m =>
  match fuel with
  | O => None
  | S fuel' =>
      fs ← aig_fan s n;
      '(d, m1) ← foldM (fun d c m =>
        if decide (c ∈ leaves) then k ← m c; Some (d `max` (1 + k), m)
        else '(k, m') ← update_depth_rec s leaves fuel' c m; Some (d `max` (1 + k), m')) 0 fs m;
      Some (d, setv m1 n (Some d))
  end.
(* refactor.hpp:485-489 update_depth *)
Definition update_depth (s : aig) (leaves : list nat) (n : nat) : M depths nat := update_depth_rec s leaves (S (size s)) n.

(* refactor.hpp:525-549 update_fanouts_info *)
Definition update_fanouts_info (s : aig) (cone : list nat) (old new : nat) (m : fanmap) : option fanmap :=
  let m1 := match m old with Some l => setv (insert_new m new l) old None | None => m end in
  ofold (add_fanouts s) m1 cone.

Section pass.
Variable order : list nat -> list nat.

(* refactor.hpp:554-573 recursive_update_fanouts_depth *)
Fixpoint update_fanouts_depth (fan : fanmap) (fuel n : nat) : M depths unit := fun m =>
  match fuel with
  | O => None
  | S fuel' =>
      match fan n with
      | None => Some (Datatypes.tt, m)
      | Some l =>
          d ← m n;
          foldM (fun _ f m =>
            k ← m f;
            if decide (k < d + 1) then update_fanouts_depth fan fuel' f (setv m f (Some (d + 1)))
            else Some (Datatypes.tt, m)) Datatypes.tt (order l) m
      end
  end.

(* refactor.hpp:473-479: the values after a replacement *)
Definition set_count (s : aig) (v : values) (n : nat) : option values :=
  f ← fanout_size s n; Some (setv v n f).
(* refactor.hpp:466-480 sub_ntk_replace *)
Definition sub_ntk_replace (fuel : nat) (leaves : list nat) (old : nat) (new : signal) (s : aig) (v : values) : option (aig * values) :=
  '(_, s') ← substitute_node fuel old new s;
  v' ← ofold (set_count s') (setv v old 0%N) (sidx new :: leaves);
  Some (s', v').

(* refactor.hpp:431-457 on_signal.  Line 440 is an unsigned subtraction; the
   interleaving of the updates of the two sides of line 443 is the one of the code. *)
Definition on_signal (p : rparams) (fuel dmax : nat) (rdepth : depths) (leaves cone : list nat) (root : nat) (new : signal) (x : rst) : option rst :=
  let s := rnet x in
  '(saved, v1) ← deref_node_recursive s root (rval x);
  '(added, v2) ← ref_node_recursive s (sidx new) v1;
  r ← rdepth root;
  let required := u32 (N.of_nat dmax + 1 + (2 ^ 32 - N.of_nat r)) in
  '(d, dep) ← update_depth s leaves (sidx new) (rdep x);
  if decide ((added < saved \/ zero_gain p = true /\ added = saved) /\
             ((N.of_nat d <= required)%N \/ depth_up p = true) /\ root <> sidx new) then
    '(s', v3) ← sub_ntk_replace fuel leaves root new s v2;
    fan ← update_fanouts_info s' cone root (sidx new) (rfan x);
    '(_, dep') ← update_fanouts_depth fan fuel (sidx new) dep;
    Some (Rst s' v3 dep' fan)
  else
    '(_, v3) ← deref_node_recursive s (sidx new) v2;
    '(_, v4) ← ref_node_recursive s root v3;
    Some (Rst s v4 dep (rfan x)).

(* refactor.hpp:421-461 replace_sub_ntk; the factoring operator calls on_signal with
   the signal it builds *)
Definition replace_sub_ntk (p : rparams) (fuel dmax : nat) (rdepth : depths) (leaves cone : list nat) (root : nat) (t : tt) (x : rst) : option rst :=
  '(f, s) ← sop_factoring t (map (fun l => Sig l false) leaves) (rnet x);
  on_signal p fuel dmax rdepth leaves cone root f (Rst s (rval x) (rdep x) (rfan x)).

(* refactor.hpp:81-102: one gate; aig_network.hpp:1083-1089 foreach_gate tests it
   when it is reached *)
Definition refactor_node (p : rparams) (fuel dmax : nat) (rdepth : depths) (x : rst) (n : nat) : option rst :=
  let s := rnet x in
  ci ← is_ci s n;
  dead ← is_dead s n;
  fo ← fanout_size s n;
  if decide (ci = true \/ dead = true \/ (1000 < fo)%N) then Some x
  else
    leaves ← reconvergence_driven_cut s (rdep x) (max_leaves p) n;
    cone ← collect_cone_nodes s leaves n;
    if decide (length cone <> 1 /\ length cone <= max_cone p) then
      t ← compute_cone_tt s leaves cone n;
      replace_sub_ntk p fuel dmax rdepth leaves cone n t x
    else Some x.

(* refactor.hpp:109-115 init and 81-102: the range of the loop is that of the
   network at its beginning *)
Definition refactor_loop (p : rparams) (fuel : nat) (s : aig) : option rst :=
  '(dep, dmax) ← compute_depth_info s;
  rdepth ← compute_reverse_depth_info s;
  fan ← compute_fanouts_info s;
  ofold (refactor_node p fuel dmax rdepth) (Rst s (init_values s) dep fan) (seq 1 (size s - 1)).

(* refactor.hpp:76-106 run, 592-605 refactor *)
Definition refactor (p : rparams) (fuel buckets : nat) (s : aig) : option aig :=
  x ← refactor_loop p fuel s;
  cleanup_dangling buckets (rnet x) false false.
End pass.

(* ---- specification ---- *)
(* number of steps of the longest path down to n from a node in use *)
Definition highest (s : aig) (n k : nat) : Prop :=
  (exists r, in_use s r /\ nsteps (fanin s) k r n) /\ forall d r, in_use s r -> nsteps (fanin s) d r n -> d <= k.
