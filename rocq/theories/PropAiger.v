(* Properties of the binary AIGER writer and reader: C31, C32, C48, C49. *)
From Verif Require Import Base Aig AigSem AigHash AigProofs AigApi Topo Clean NetProofs CleanProofs Subst Demo NetDemo Aiger AigerProofs.
Local Open Scope N_scope.

(* ---- C31: the delta code ---- *)
(* For every 32-bit delta and all following bytes, decoding the written bytes
   gives the delta (as the int of the same 32 bits) and leaves exactly the
   following bytes. *)
Theorem C31_delta_code delta follow : delta < 2 ^ 32 ->
  exists bs, encode delta = Some bs /\
    decode (Str (bs ++ follow) false false) = Some (wrap32 (Z.of_N delta), Str follow false false).
Proof. exact (encode_decode delta follow). Qed.
Print Assumptions C31_delta_code.
(* as the unsigned number it is combined with, the int is the delta *)
Theorem C31_delta_unsigned delta : delta < 2 ^ 32 -> to_u32 (wrap32 (Z.of_N delta)) = delta.
Proof.
  intros H. unfold to_u32, wrap32. replace ((_ + 2 ^ 31) mod 2 ^ 32 - 2 ^ 31)%Z with
    (Z.of_N delta - 2 ^ 32 * ((Z.of_N delta + 2 ^ 31) / 2 ^ 32))%Z by (rewrite (Z.mod_eq _ (2 ^ 32)) by done; lia).
  rewrite Z.mul_comm, <- Z.add_opp_r, <- Z.mul_opp_l, Z.mod_add, Z.mod_small by lia. apply N2Z.id.
Qed.
Print Assumptions C31_delta_unsigned.
Example C31_example : encode 300 = Some [172; 2] /\ decode (Str [172; 2; 7] false false) = Some (300%Z, Str [7] false false) /\
  encode (2 ^ 32 - 1) = Some [255; 255; 255; 255; 15].
Proof. repeat split; vm_compute; reflexivity. Qed.

(* ---- C48: termination of the decoder ---- *)
(* Whatever the processor makes of the shift, the decoder does not return on a
   stream that ends before a byte below 128: no amount of steps is enough. *)
Theorem C48_decode_refuted (shl : Z -> Z -> Z) (l : bytes) : Forall (fun c => 128 <= c < 256) l ->
  forall steps, decode_with (fun x k => Some (shl x k)) steps 0 0 (Str l false false) = DFuel.
Proof. intros H steps. by apply decode_diverges. Qed.
Print Assumptions C48_decode_refuted.
(* it returns after the first byte below 128 if there is one *)
Theorem C48_decode_returns (shl : Z -> Z -> Z) (l follow : bytes) c : c < 128 -> Forall (fun c => 128 <= c < 256) l ->
  exists z, decode_with (fun x k => Some (shl x k)) (S (length l)) 0 0 (Str (l ++ c :: follow) false false) =
    DOk z (Str follow false false).
Proof. intros Hc H. by apply decode_terminates. Qed.
Print Assumptions C48_decode_returns.
(* By the letter of C++17 it returns on no stream that starts with five bytes of
   128 or more; the written code has at most five bytes, so it is not affected. *)
Theorem C48_long_code_undefined a b c d e follow :
  Forall (fun c => 128 <= c < 256) [a; b; c; d; e] -> decode (Str (a :: b :: c :: d :: e :: follow) false false) = None.
Proof.
  intros H. unfold decode.
  assert (Hb : forall x, 128 <= x < 256 -> Z.land (Z.of_N x) 128 <> 0%Z).
  { intros x Hx. destruct (byte_high (x - 128)) as [_ Hh]; [lia|]. by replace (x - 128 + 128) with x in Hh by lia. }
  repeat match goal with H : Forall _ (_ :: _) |- _ => apply Forall_cons in H as [? H] end.
  do 5 (cbn [decode_with getc good rest eofb failb negb andb];
    match goal with |- context [shl_int ?x ?k] => destruct (shl_int x k) eqn:?; [|done] end;
    rewrite decide_False by (by apply Hb)).
  destruct follow; cbn [decode_with getc good rest eofb failb negb andb]; unfold shl_int; (rewrite decide_False; [done|lia]).
Qed.
Print Assumptions C48_long_code_undefined.
(* A file whose gate section is cut off is not read: "aig 3 2 0 1 1", output 6,
   and no byte of the gate. *)
Example C48_truncated : read_aiger 1 [97;105;103;32;51;32;50;32;48;32;49;32;49;10; 54;10] = None.
Proof. vm_compute. reflexivity. Qed.

(* ---- C32: write and read back ---- *)
(* A clean network is written, the file is read, and the network read has the
   same number of inputs and outputs and the same functions. *)
Theorem C32_round_trip buckets s : (0 < buckets)%nat -> clean s ->
  exists file d, write_aiger s = Some file /\ read_aiger buckets file = Some (Some (d, [])) /\ reachable d /\
    npi d = npi s /\ npo d = npo s /\ length (ins d) = length (ins s) /\ length (outs d) = length (outs s) /\
    forall env l, computes s env l <-> computes d env l.
Proof.
  intros Hb C. destruct (aiger_round_trip buckets s Hb C) as (file & d & ? & ? & ? & ? & ? & ? & ? & ? & _). exists file, d. done.
Qed.
Print Assumptions C32_round_trip.
(* For networks made by creation calls it is the same network, node by node. *)
Theorem C32_same_network buckets s : (0 < buckets)%nat -> clean s -> reachable s ->
  exists file d, write_aiger s = Some file /\ read_aiger buckets file = Some (Some (d, [])) /\
    ks d = ks s /\ ins d = ins s /\ outs d = outs s /\ npi d = npi s /\ npo d = npo s.
Proof.
  intros Hb C Hr. destruct (aiger_round_trip buckets s Hb C) as (file & d & ? & ? & ? & ? & ? & ? & ? & ? & Hst). exists file, d.
  destruct (Hst (reachable_wf s Hr)) as (? & ? & ?). done.
Qed.
Print Assumptions C32_same_network.
(* Clean are: all combinational networks made by creation calls with the inputs
   first, ... *)
Theorem C32_reachable_clean s : reachable s -> is_combinational s = true -> ins s = seq 1 (length (ins s)) ->
  N.of_nat (2 * size s + length (outs s)) < 2 ^ 31 -> clean s.
Proof. exact (reachable_clean s). Qed.
Print Assumptions C32_reachable_clean.
(* ... and all results of cleanup_dangling, whatever the network was like. *)
Theorem C32_cleanup_clean buckets s rdp rrp d : (0 < buckets)%nat -> network s ->
  cleanup_dangling buckets s rdp rrp = Some d -> N.of_nat (2 * size d + length (outs d)) < 2 ^ 31 -> clean d.
Proof. intros Hb W E Hs. by destruct (cleanup_clean buckets s rdp rrp d Hb W E Hs). Qed.
Print Assumptions C32_cleanup_clean.

Definition io_ops : list op :=
  [OpPi; OpPi; OpPi; OpAnd (Sig 1 false) (Sig 2 true); OpXor (Sig 4 false) (Sig 3 false); OpPo (Sig 7 true); OpPo (Sig 1 true); OpPo (Sig 0 true)].
Definition io_demo : aig := build io_ops.
Example C32_example : reachable io_demo /\ clean io_demo /\
  write_aiger io_demo = Some ([97;105;103;32;55;32;51;32;48;32;51;32;52;10; 49;53;10; 51;10; 49;10; 3;3; 2;1; 3;3; 1;2; 99]).
Proof.
  assert (Hr : reachable io_demo) by (apply build_reachable; vm_compute; reflexivity).
  split; [done|]. split; [|vm_compute; reflexivity]. apply reachable_clean; [done|..]; vm_compute; reflexivity.
Qed.

Lemma computes_same s s' env l : ks s = ks s' -> ins s = ins s' -> outs s = outs s' -> npo s = npo s' ->
  computes s env l -> computes s' env l.
Proof.
  intros Hk Hi Ho Hn (v & [V1 V2 V3] & ->). exists v. split; [|unfold pos; by rewrite Ho, Hn].
  split; [done|by rewrite <- Hi|by rewrite <- Hk].
Qed.
(* value of the first output of a reachable network *)
Lemma computes_ev s env l : reachable s -> l = map (sval (ev s env)) (pos s) -> computes s env l.
Proof. intros Hr ->. exists (ev s env). split; [|done]. by apply ev_valuation, reachable_wf. Qed.

(* An input created after a gate: the file describes another network.  Here the
   output is x0 & x1; read back it is x2. *)
Definition late_pi : aig := build [OpPi; OpPi; OpAnd (Sig 1 false) (Sig 2 false); OpPi; OpPo (Sig 3 false)].
Theorem C32_late_input_refuted : exists s file d env l, reachable s /\ is_combinational s = true /\
  write_aiger s = Some file /\ read_aiger 1 file = Some (Some (d, [])) /\ reachable d /\ npi d = npi s /\ npo d = npo s /\
  computes s env l /\ ~ computes d env l.
Proof.
  assert (Hr : reachable late_pi) by (apply build_reachable; vm_compute; reflexivity).
  pose (d := build [OpPi; OpPi; OpPi; OpAnd (Sig 3 false) (Sig 2 false); OpPo (Sig 3 false)]).
  assert (Hd : reachable d) by (apply build_reachable; vm_compute; reflexivity).
  exists late_pi, (get_some [] (write_aiger late_pi)), d, (fun k => (k <? 2)%nat), [true].
  split; [done|]. split; [vm_compute; reflexivity|]. split; [vm_compute; reflexivity|]. split; [vm_compute; reflexivity|].
  split; [done|]. split; [vm_compute; reflexivity|]. split; [vm_compute; reflexivity|].
  split; [apply computes_ev; [done|vm_compute; reflexivity]|].
  intros Hc. assert (Hc' : computes d (fun k => (k <? 2)%nat) [false]) by (apply computes_ev; [done|vm_compute; reflexivity]).
  assert (E : [true] = [false]); [|done]. eapply computes_unique; [|exact Hc|exact Hc']. by apply wf_network, reachable_wf.
Qed.
Print Assumptions C32_late_input_refuted.

(* A dead node shifts the numbering of the gates behind it.  Here the output is
   x1 & x2; after an unused gate is taken out, the network read back gives the
   constant false. *)
Definition undead : aig := build [OpPi; OpPi; OpPi; OpAnd (Sig 1 false) (Sig 2 false); OpAnd (Sig 2 false) (Sig 3 false);
  OpAnd (Sig 1 false) (Sig 3 false); OpPo (Sig 5 false)].
Theorem C32_dead_node_refuted : exists s0 s file d env l, reachable s0 /\ is_combinational s0 = true /\ ins s0 = seq 1 (length (ins s0)) /\
  take_out_node 4 s0 = Some (tt, s) /\
  write_aiger s = Some file /\ read_aiger 1 file = Some (Some (d, [])) /\ reachable d /\ npi d = npi s /\ npo d = npo s /\
  computes s env l /\ ~ computes d env l.
Proof.
  assert (Hr : reachable undead) by (apply build_reachable; vm_compute; reflexivity).
  pose (d := build [OpPi; OpPi; OpPi; OpAnd (Sig 2 false) (Sig 1 false); OpPo (Sig 0 false)]).
  assert (Hd : reachable d) by (apply build_reachable; vm_compute; reflexivity).
  set (s := (get_some (tt, undead) (take_out_node 4 undead)).2).
  exists undead, s, (get_some [] (write_aiger s)), d, (fun _ => true), [true].
  split; [done|]. split; [vm_compute; reflexivity|]. split; [vm_compute; reflexivity|]. split; [vm_compute; reflexivity|].
  split; [vm_compute; reflexivity|]. split; [vm_compute; reflexivity|].
  split; [done|]. split; [vm_compute; reflexivity|]. split; [vm_compute; reflexivity|].
  split.
  { apply (computes_same undead); [vm_compute; reflexivity..|]. apply computes_ev; [done|vm_compute; reflexivity]. }
  intros Hc. assert (Hc' : computes d (fun _ => true) [false]) by (apply computes_ev; [done|vm_compute; reflexivity]).
  assert (E : [true] = [false]); [|done]. eapply computes_unique; [|exact Hc|exact Hc']. by apply wf_network, reachable_wf.
Qed.
Print Assumptions C32_dead_node_refuted.

(* ---- C49: port names ---- *)
(* If the symbol table names every input and every output, the reader gives the
   ports these names, in order and escaped, also if signals are shared by several
   ports.  The network is the one written. *)
Theorem C49_port_names buckets s inn outn : (0 < buckets)%nat -> clean s -> length inn = npi s -> length outn = npo s ->
  Forall nameable inn -> Forall nameable outn ->
  exists pre d, write_aiger s = Some (pre ++ [99]) /\
    reader buckets (pre ++ sym_lines 105 0 inn ++ sym_lines 111 0 outn ++ [99]) =
      Some (Some (d, map escape inn, map escape outn)) /\
    reachable d /\ npi d = npi s /\ npo d = npo s /\ (forall env l, computes s env l <-> computes d env l).
Proof. exact (names_round_trip buckets s inn outn). Qed.
Print Assumptions C49_port_names.
(* inputs "a", "b", "c1"; outputs "f", "g", "h" *)
Example C49_example : exists d, reader 1 ([97;105;103;32;55;32;51;32;48;32;51;32;52;10; 49;53;10; 51;10; 49;10; 3;3; 2;1; 3;3; 1;2] ++
    sym_lines 105 0 [[97]; [98]; [99; 49]] ++ sym_lines 111 0 [[102]; [103]; [104]] ++ [99]) =
  Some (Some (d, [[97]; [98]; [92; 99; 49; 32]], [[102]; [103]; [104]])).
Proof. eexists. vm_compute. reflexivity. Qed.

(* With an incomplete symbol table the vector of names of a signal is indexed
   past its end.  One input named "a", and an output without a name that is this
   input: "aig 1 1 0 1 0", output 2, "i0 a". *)
Theorem C49_unnamed_output_refuted : exists file d m, read_aiger 1 file = Some (Some (d, m)) /\ reachable d /\
  m = [(Sig 1 false, [97])] /\ outs d = [Sig 1 false] /\ reader 1 file = None.
Proof.
  exists [97;105;103;32;49;32;49;32;48;32;49;32;48;10; 50;10; 105;48;32;97;10], (build [OpPi; OpPo (Sig 1 false)]), [(Sig 1 false, [97])].
  split; [vm_compute; reflexivity|]. split; [apply build_reachable; vm_compute; reflexivity|]. repeat split; vm_compute; reflexivity.
Qed.
Print Assumptions C49_unnamed_output_refuted.
(* A name for an output that does not exist is undefined, too: "o1 a" with one
   output. *)
Theorem C49_extra_name_refuted : exists file, 
  read_aiger 1 file = None /\ exists d, read_aiger 1 (take 16 file) = Some (Some (d, [])).
Proof.
  exists [97;105;103;32;49;32;49;32;48;32;49;32;48;10; 50;10; 111;49;32;97;10].
  split; [vm_compute; reflexivity|]. eexists. vm_compute. reflexivity.
Qed.
Print Assumptions C49_extra_name_refuted.
