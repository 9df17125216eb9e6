(* A decision procedure for [network] and concrete networks that no sequence of
   creation calls produces. *)
From Verif Require Import Base Aig AigSem Demo Clean.

Definition key_check (s : aig) (rank : nat -> nat) (n : nat) : bool :=
  match ks s !! n with
  | Some (a, b) =>
      if decide (a = b) then bool_decide (n = 0) || bool_decide (n ∈ ins s)
      else bool_decide (n = 0) ||
        (bool_decide (sidx a < size s) && bool_decide (sidx b < size s) &&
         bool_decide (rank (sidx a) < rank n) && bool_decide (rank (sidx b) < rank n))
  | None => false
  end.
Definition in_check (s : aig) (k : nat) : bool :=
  match ins s !! k with
  | Some n => bool_decide (n <> 0) && bool_decide (ks s !! n = Some (sig_of_data k, sig_of_data k))
  | None => false
  end.
Definition net_check (s : aig) (rank : nat -> nat) : bool :=
  bool_decide (ks s !! 0 = Some (Sig 0 false, Sig 0 false)) &&
  forallb (in_check s) (seq 0 (length (ins s))) &&
  forallb (key_check s rank) (seq 0 (size s)) &&
  forallb (fun f => bool_decide (sidx f < size s)) (outs s) &&
  bool_decide (npi s <= length (ins s)) && bool_decide (npo s <= length (outs s)) &&
  bool_decide (length (fo s) = size s).

Lemma forallb_seq (p : nat -> bool) n k : forallb p (seq 0 n) = true -> k < n -> p k = true.
Proof. rewrite forallb_forall. intros H Hk. apply H, in_seq. lia. Qed.

Lemma net_check_sound s rank : net_check s rank = true -> network s.
Proof.
  unfold net_check. rewrite !andb_true_iff, !bool_decide_eq_true. intros [[[[[[H0 Hi] Hk] Ho] H1] H2] H3].
  assert (Hkey : forall n a b, ks s !! n = Some (a, b) ->
     if decide (a = b) then n = 0 \/ n ∈ ins s else n = 0 \/
       (sidx a < size s /\ sidx b < size s /\ rank (sidx a) < rank n /\ rank (sidx b) < rank n)).
  { intros n a b E. pose proof (forallb_seq _ _ n Hk) as G. unfold key_check in G. rewrite E in G.
    specialize (G (lookup_lt_Some _ _ _ E)). destruct (decide (a = b)).
    - by rewrite orb_true_iff, !bool_decide_eq_true in G.
    - rewrite orb_true_iff, !andb_true_iff, !bool_decide_eq_true in G. tauto. }
  split; try done.
  - intros k n E. pose proof (forallb_seq _ _ k Hi) as G. unfold in_check in G. rewrite E in G.
    specialize (G (lookup_lt_Some _ _ _ E)). by rewrite andb_true_iff, !bool_decide_eq_true in G.
  - intros n a E. specialize (Hkey n a a E). by rewrite decide_True in Hkey.
  - intros n m (a & b & E & Hn & Hab & Hm). specialize (Hkey n a b E). rewrite decide_False in Hkey by done.
    destruct Hkey as [?|(? & ? & _)]; [done|]. destruct Hm; by subst.
  - exists rank. intros n m (a & b & E & Hn & Hab & Hm). specialize (Hkey n a b E). rewrite decide_False in Hkey by done.
    destruct Hkey as [?|(_ & _ & ? & ?)]; [done|]. destruct Hm; by subst.
  - apply Forall_forall. intros f Hf. rewrite forallb_forall in Ho. specialize (Ho f (proj1 (elem_of_list_In _ _) Hf)).
    by apply bool_decide_eq_true in Ho.
Qed.

(* Inputs 1 and 2; 3 = !4 & 5 (fanins after the node); 4 = 1 & 2; 5 = 1 & !2;
   6 = 4 & 5 is dead; 7 = 5 & true is trivial and feeds the second output. *)
Definition skewed_ks : list key :=
  [(Sig 0 false, Sig 0 false); (sig_of_data 0, sig_of_data 0); (sig_of_data 1, sig_of_data 1);
   (Sig 4 true, Sig 5 false); (Sig 1 false, Sig 2 false); (Sig 1 false, Sig 2 true);
   (Sig 4 false, Sig 5 false); (Sig 0 true, Sig 5 false)].
Definition skewed : aig :=
  Aig skewed_ks (repeat 0 8) [0; 2; 2; 1; 1; 2; 0; 1]%N (repeat false 8) [1; 2] [Sig 3 true; Sig 7 false] 2 2 [] [0] 0%N.
Definition skewed_rank (n : nat) : nat := if decide (n = 3) then 9 else n.
Lemma skewed_network : network skewed.
Proof. apply (net_check_sound _ skewed_rank). vm_compute. reflexivity. Qed.

(* the same without node 7's trivial conjunction: 7 = 5 & 3 *)
Definition skewed2 : aig :=
  Aig (take 7 skewed_ks ++ [(Sig 3 true, Sig 5 false)]) (repeat 0 8) [0; 2; 2; 2; 1; 2; 0; 1]%N (repeat false 8)
    [1; 2] [Sig 3 true; Sig 7 false] 2 2 [] [0] 0%N.
Definition skewed2_rank (n : nat) : nat := if decide (n = 3) then 9 else if decide (n = 7) then 10 else n.
Lemma skewed2_network : network skewed2.
Proof. apply (net_check_sound _ skewed2_rank). vm_compute. reflexivity. Qed.

(* a combinational network built by calls *)
Definition comb_ops : list op :=
  [OpPi; OpPi; OpPi; OpAnd (Sig 1 false) (Sig 2 true); OpXor (Sig 4 false) (Sig 3 false);
   OpAnd (Sig 4 false) (Sig 3 true); OpPo (Sig 7 true); OpPo (Sig 2 false); OpAnd (Sig 7 false) (Sig 1 false)].
Definition comb : aig := build comb_ops.
Lemma comb_reachable : reachable comb.
Proof. apply build_reachable. vm_compute. reflexivity. Qed.

Definition strash_check (s : aig) : bool :=
  forallb (fun k : key => bool_decide (k.1 = k.2) || bool_decide (0 < sidx k.1 < sidx k.2)) (ks s) &&
  bool_decide (NoDup (List.filter (fun k : key => negb (bool_decide (k.1 = k.2))) (ks s))).
Lemma nodup_filter {A} (p : A -> bool) l n m x : NoDup (List.filter p l) -> l !! n = Some x -> l !! m = Some x -> p x = true -> n = m.
Proof.
  revert n m. induction l as [|y l IH]; intros n m Hd Hn Hm Hp; [done|]. cbn in Hd.
  assert (Hin : forall k, l !! k = Some x -> x ∈ List.filter p l).
  { intros k Hk. apply elem_of_list_In, filter_In. split; [|done]. apply elem_of_list_In. by eapply elem_of_list_lookup_2. }
  destruct n as [|n], m as [|m]; cbn in *; [done| | |].
  - injection Hn as ->. rewrite Hp in Hd. apply NoDup_cons in Hd as [Hd _]. exfalso. by eapply Hd, Hin.
  - injection Hm as ->. rewrite Hp in Hd. apply NoDup_cons in Hd as [Hd _]. exfalso. by eapply Hd, Hin.
  - f_equal. eapply IH; try done. destruct (p y); [by apply NoDup_cons in Hd as [_ Hd]|done].
Qed.
Lemma strash_check_sound s : strash_check s = true -> strashed s.
Proof.
  unfold strash_check. rewrite andb_true_iff, bool_decide_eq_true, forallb_forall. intros [H1 H2]. split.
  - intros n a b _ E _ Hab. specialize (H1 (a, b) (proj1 (elem_of_list_In _ _) (elem_of_list_lookup_2 _ _ _ E))).
    cbn in H1. rewrite orb_true_iff, !bool_decide_eq_true in H1. by destruct H1.
  - intros n m a b _ _ E E' Hab. eapply nodup_filter; [exact H2|exact E|exact E'|]. cbn. by rewrite bool_decide_eq_false_2.
Qed.
Lemma skewed2_strashed : strashed skewed2.
Proof. apply strash_check_sound. vm_compute. reflexivity. Qed.
