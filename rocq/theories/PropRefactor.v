(* C45: reconvergence-driven cuts and cone tables. *)
From Verif Require Import Base Aig AigSem AigProofs AigApi NetProofs Demo Topo Clean Tt TtProofs RefDeref Refactor RefactorProofs.

(* The depth of every node in use is the length of the longest path below it,
   _depth_max is the largest depth, and no other node except the inputs and the
   constant has an entry. *)
Theorem C45_depths s : network s -> exists m d, compute_depth_info s = Some (m, d) /\
  (forall n, in_use s n \/ n ∈ 0 :: ins s -> exists k, m n = Some k /\ longest s n k /\ k <= d) /\
  (forall n, ~ (in_use s n \/ n ∈ 0 :: ins s) -> m n = None) /\
  (d = 0 \/ exists n, in_use s n /\ longest s n d).
Proof.
  intros W. destruct (depth_info_ok s W) as (l & m & d & _ & E & T & H1 & H2 & H3). exists m, d. split; [done|].
  assert (Hl : forall n, n ∈ l <-> in_use s n \/ n ∈ 0 :: ins s).
  { intros n. rewrite (to_elem _ _ _ _ T). split.
    - intros [?|(r & Hr & Hn)]; [by right|]. left. apply elem_of_list_fmap in Hr as (f & -> & Hf).
      exists f. split; [done|]. by apply rtc_edge_fanin.
    - intros [(f & Hf & Hn)|?]; [right|by left]. exists (sidx f). split; [by apply elem_of_list_fmap_1|]. by apply rtc_edge_fanin. }
  split; [intros n Hn; apply H1; by apply Hl|]. split; [intros n Hn; apply H2; by rewrite Hl|].
  destruct H3 as [?|(n & Hn & Em)]; [by left|]. destruct (H1 n Hn) as (k & Ek & Lk & _). rewrite Em in Ek. injection Ek as <-.
  apply Hl in Hn as [Hn|Hn]; [right; eauto|]. left. destruct Lk as [[y Hy] _]. destruct d as [|d]; [done|].
  inversion Hy; subst. exfalso. by eapply (source_no_fanin s n).
Qed.
Print Assumptions C45_depths.

(* The leaves: at most limit different nodes strictly below the root such that
   every path from the root down meets one of them. *)
Theorem C45_cut s depth limit root a b : network s ->
  ks s !! root = Some (a, b) -> root <> 0 -> sidx a <> sidx b -> 2 <= limit ->
  (forall n, rtc (fanin s) root n -> is_Some (depth n)) ->
  exists leaves, reconvergence_driven_cut s depth limit root = Some leaves /\
    length leaves <= limit /\ NoDup leaves /\ (forall n, n ∈ leaves -> tc (fanin s) root n) /\ covered s leaves root.
Proof.
  intros W E H0 Hne Hlim Hd. assert (Hab : a <> b) by congruence.
  destruct (rcut_ok s W depth limit root Hd (lookup_lt_Some _ _ _ E) a b E H0 Hab Hne Hlim) as (st & Ec & I).
  exists st.2. split; [done|]. split; [apply (ci_len _ _ _ _ I)|]. split; [apply (ci_nodup _ _ _ _ I)|]. split.
  - intros n Hn. pose proof (ci_tfi _ _ _ _ I n (ci_vis _ _ _ _ I n Hn)) as H. apply rtc_tc in H as [<-|H]; [|done].
    by destruct (ci_noroot _ _ _ _ I).
  - apply (visited_covered s W limit root); [done|]. apply (ci_root _ _ _ _ I).
Qed.
Print Assumptions C45_cut.

(* The cone: the nodes between the leaves and the root, fanins first; the table of
   the root over the leaves gives the value of the root for every valuation of the
   network. *)
Theorem C45_table s leaves root : network s -> NoDup leaves -> length leaves <= 30 ->
  (forall n, n ∈ leaves -> n < size s) -> root ∉ leaves -> covered s leaves root ->
  exists cone t, collect_cone_nodes s leaves root = Some cone /\
    (forall i n m, cone !! i = Some n -> fanin s n m -> m ∈ leaves \/ m ∈ take i cone) /\
    (forall n, n ∈ cone -> is_gate s n /\ n ∉ leaves) /\ root ∈ cone /\
    compute_cone_tt s leaves cone root = Some t /\ nv t = length leaves /\
    forall env v, valuation s env v -> tt_eval t (fun i => default false (v <$> leaves !! i)) = v root.
Proof.
  intros W Hnd Hlen Hl Hr Hc. destruct (cone_ok s leaves root W Hnd Hl Hc Hr) as (cone & E & Ho & Hin).
  destruct (net_valuation s (fun _ => false) W) as [v0 V0].
  destruct (cone_fold_ok s leaves v0 Hnd (val_gate _ _ _ V0) cone Ho) as (m & Em & Ht & Hs).
  destruct (Hs root) as [t Et]; [by right|]. exists cone, t. split; [done|]. split; [intros i n x Hn; by apply Ho|].
  split; [intros n Hn; apply elem_of_list_lookup in Hn as [i Hi]; destruct (Ho i n Hi) as (? & ? & _); done|]. split; [done|].
  split; [unfold compute_cone_tt; rewrite decide_True by done; rewrite Em; done|]. split; [apply (Ht root t Et)|].
  intros env v V. destruct (cone_fold_ok s leaves v Hnd (val_gate _ _ _ V) cone Ho) as (m' & Em' & Ht' & _).
  rewrite Em in Em'. injection Em' as <-. by destruct (Ht' root t Et) as (_ & _ & H).
Qed.
Print Assumptions C45_table.

(* Both together on a root in use, with the depths the constructor computes: the
   root is the function of the leaves that the table says. *)
Theorem C45_all s depth dmax limit root a b : network s -> in_use s root ->
  ks s !! root = Some (a, b) -> root <> 0 -> sidx a <> sidx b -> 2 <= limit <= 30 ->
  compute_depth_info s = Some (depth, dmax) ->
  exists leaves cone t, reconvergence_driven_cut s depth limit root = Some leaves /\
    collect_cone_nodes s leaves root = Some cone /\ compute_cone_tt s leaves cone root = Some t /\
    length leaves <= limit /\ NoDup leaves /\ nv t = length leaves /\
    forall env v, valuation s env v -> tt_eval t (fun i => default false (v <$> leaves !! i)) = v root.
Proof.
  intros W Hu E H0 Hne Hlim Ed. destruct (C45_depths s W) as (m & d & E' & Hd & _). rewrite Ed in E'. injection E' as <- <-.
  assert (Huse : forall n, rtc (fanin s) root n -> in_use s n).
  { intros n Hn. destruct Hu as (f & Hf & Hr). exists f. split; [done|]. by etrans. }
  destruct (C45_cut s depth limit root a b W E H0 Hne) as (leaves & Ec & Hlen & Hnd & Htc & Hcov); [lia| |].
  { intros n Hn. destruct (Hd n) as (k & -> & _); [left; auto|]. by eexists. }
  assert (Hlt : forall n, n ∈ leaves -> n < size s).
  { intros n Hn. assert (exists x, fanin s x n) as [x Hx].
    { clear -Htc Hn. specialize (Htc n Hn). induction Htc as [x y H|x y z _ _ IH]; eauto. }
    by apply (net_gate _ W x). }
  assert (Hroot : root ∉ leaves).
  { intros Hn. specialize (Htc root Hn). destruct (net_acyclic _ W) as [rk Hrk].
    assert (forall x y, tc (fanin s) x y -> rk y < rk x) as Htr.
    { induction 1 as [x y H|x y z H _ IH]; [by apply Hrk|]. pose proof (Hrk _ _ H). lia. }
    pose proof (Htr _ _ Htc). lia. }
  destruct (C45_table s leaves root W Hnd) as (cone & t & Eco & _ & _ & _ & Et & Hnv & Hv); [lia|done|done|done|].
  by exists leaves, cone, t.
Qed.
Print Assumptions C45_all.

(* run() calls this for every gate that is not dead.  A gate in no output's cone has
   no depth; if its fanout in turn is such a gate, the depth of the leaf is read
   through end(). *)
Definition dangling_net : aig := build [OpPi; OpPi; OpPi; OpAnd (Sig 1 false) (Sig 2 false); OpAnd (Sig 3 false) (Sig 4 false); OpPo (Sig 1 false)].
Theorem C45_dangling_refuted : exists s depth dmax root, reachable s /\ is_gate s root /\ is_dead s root = Some false /\
  compute_depth_info s = Some (depth, dmax) /\ reconvergence_driven_cut s depth 10 root = None.
Proof.
  assert (H : exists x, compute_depth_info dangling_net = Some x /\ reconvergence_driven_cut dangling_net x.1 10 5 = None).
  { assert (E2 : (fun x => reconvergence_driven_cut dangling_net x.1 10 5) <$> compute_depth_info dangling_net = Some None) by (vm_compute; reflexivity).
    apply fmap_Some_1 in E2 as (x & E & E2). exists x. split; [exact E|symmetry; exact E2]. }
  destruct H as ([m d] & E1 & E2). exists dangling_net, m, d, 5.
  split; [apply build_reachable; vm_compute; reflexivity|].
  split; [exists (Sig 3 false), (Sig 4 false); split; [vm_compute; reflexivity|split; [lia|discriminate]]|].
  split; [vm_compute; reflexivity|]. split; [exact E1|exact E2].
Qed.
Print Assumptions C45_dangling_refuted.

(* With max_leaves_num 1 the final assertion fails on every such root whose fanins
   are both inputs. *)
Theorem C45_small_limit_refuted : exists s depth dmax root, reachable s /\ is_gate s root /\ in_use s root /\
  compute_depth_info s = Some (depth, dmax) /\ reconvergence_driven_cut s depth 1 root = None.
Proof.
  set (s := build [OpPi; OpPi; OpAnd (Sig 1 false) (Sig 2 false); OpPo (Sig 3 false)]).
  assert (H : exists x, compute_depth_info s = Some x /\ reconvergence_driven_cut s x.1 1 3 = None).
  { assert (E2 : (fun x => reconvergence_driven_cut s x.1 1 3) <$> compute_depth_info s = Some None) by (vm_compute; reflexivity).
    apply fmap_Some_1 in E2 as (x & E & E2). exists x. split; [exact E|symmetry; exact E2]. }
  destruct H as ([m d] & E1 & E2). exists s, m, d, 3.
  split; [apply build_reachable; vm_compute; reflexivity|].
  split; [exists (Sig 1 false), (Sig 2 false); split; [vm_compute; reflexivity|split; [lia|discriminate]]|].
  split; [exists (Sig 3 false); split; [|apply rtc_refl]; assert (outs s = [Sig 3 false]) as -> by (vm_compute; reflexivity); left|]. split; [exact E1|exact E2].
Qed.
Print Assumptions C45_small_limit_refuted.

(* Nonvacuity: f = (x1 & x2) & !(x2 & x3), cut into its three inputs. *)
Definition refactor_net : aig := build [OpPi; OpPi; OpPi; OpAnd (Sig 1 false) (Sig 2 false); OpAnd (Sig 2 false) (Sig 3 false); OpAnd (Sig 4 false) (Sig 5 true); OpPo (Sig 6 false)].
Example C45_nonvacuous : exists leaves cone t,
  (x ← compute_depth_info refactor_net; reconvergence_driven_cut refactor_net x.1 10 6) = Some leaves /\
  collect_cone_nodes refactor_net leaves 6 = Some cone /\ compute_cone_tt refactor_net leaves cone 6 = Some t /\
  leaves = [1; 2; 3] /\ cone = [4; 5; 6] /\ tb t = [false; false; false; true; false; false; false; false].
Proof. do 3 eexists. repeat (split; [vm_compute; reflexivity|]). vm_compute; reflexivity. Qed.
