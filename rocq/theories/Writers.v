(* Model of include/operations/io/detail/writer_lut.hpp and write_verilog.hpp
   (with the output routines of lorina/verilog.hpp:502-707): the text written
   for a LUT network and for an AIG. *)
From Verif Require Import Base Verilog Aig Tt Clean Aiger Klut Cnf.
Local Open Scope string_scope.
Local Open Scope list_scope.
Local Open Scope nat_scope.

Definition tab : string := String "009" "".
Definition nl : string := String "010" "".
Definition cats (l : list string) : string := foldr String.append "" l.

(* fmt::format("{}") of an unsigned integer *)
Definition digit (n : nat) : ascii := ascii_of_nat (48 + n).
Fixpoint dec_go (fuel n : nat) (acc : string) : string :=
  match fuel with
  | O => acc
  | S f => let acc' := String (digit (n mod 10)) acc in
           if decide (n / 10 = 0) then acc' else dec_go f (n / 10) acc'
  end.
Definition sdec (n : nat) : string := dec_go (S n) n "".

(* kitty/print.hpp:187-210 print_hex of a dynamic_truth_table: a block has up to
   16 digits, and blocks and digits run from the most significant one *)
Definition hexdigit (n : nat) : ascii := if decide (n < 10) then ascii_of_nat (48 + n) else ascii_of_nat (97 + (n - 10)).
Definition nibble (f : tt) (j : nat) : nat :=
  Nat.b2n (get_bit f (4 * j)) + 2 * Nat.b2n (get_bit f (4 * j + 1)) +
  4 * Nat.b2n (get_bit f (4 * j + 2)) + 8 * Nat.b2n (get_bit f (4 * j + 3)).
Definition hex_digits (n : nat) : nat := if decide (n <= 1) then 1 else 2 ^ n / 4.
Definition hex_chunk (f : tt) (k : nat) : string :=
  foldr (fun j r => String (hexdigit (nibble f j)) r) "" (rev (seq 0 k)).
Definition to_hex (f : tt) : string := hex_chunk f (hex_digits (nv f)).

(* write_verilog.hpp:53-58 write_verilog_params.  Simplification: the width of a
   port is 0 (scalar), which is all the reader produces (reader.hpp:147, 158);
   the module name is "top". *)
Record ports := Ports { in_names : list string; out_names : list string }.
Definition no_ports : ports := Ports [] [].

(* std::map built by assignments; the last one for a key counts *)
Fixpoint assoc {A} (l : list (nat * A)) (n : nat) : option A :=
  match l with
  | [] => None
  | (k, x) :: r => match assoc r n with Some y => Some y | None => if decide (k = n) then Some x else None end
  end.

(* ---------- writer_lut.hpp:77-215 ---------- *)
Definition wire_name (n : nat) : string := "_w" +:+ sdec n +:+ "_".
(* 79-99 *)
Definition lut_pis (s : klut) (ps : ports) : list string :=
  match in_names ps with
  | [] => map (fun n => "_i" +:+ sdec n +:+ "_") (kpis s)
  | l => l
  end.
Definition pi_map (s : klut) (ps : ports) : option (list (nat * string)) :=
  if decide (length (kpis s) <= length (lut_pis s ps)) then Some (zip (kpis s) (lut_pis s ps)) else None.
(* 101-116 *)
Definition lut_pos (s : klut) (ps : ports) : list string :=
  match out_names ps with
  | [] => map (fun i => "_o" +:+ sdec i +:+ "_") (seq 0 (knpo s))
  | l => l
  end.
(* 118-143.  Signals of LUT networks are never complemented. *)
Record lut := Lut { l_node : nat; l_num : nat; l_fan : list string; l_fn : tt }.
Definition fanin_name (pm : list (nat * string)) (ws : list nat) (c : nat) : option string :=
  if decide (c ∈ ws) then Some (wire_name c) else assoc pm c.
Fixpoint luts_from (s : klut) (pm : list (nat * string)) (ws : list nat) (cnt : nat) (ns : list nat) : option (list lut) :=
  match ns with
  | [] => Some []
  | n :: r =>
      pi ← kis_pi s n;
      if bool_decide (n <= 1) || pi then luts_from s pm ws cnt r
      else
        let ws' := ws ++ [n] in
        x ← kn s !! n;
        f ← knode_function s n;
        fs ← opt_map (fanin_name pm ws') (kch x);
        l ← luts_from s pm ws' (S cnt) r;
        Some (Lut n cnt fs f :: l)
  end.
Definition lut_name (l : lut) : string := "name" +:+ sdec (l_num l).
(* 145-170 *)
Definition port_list (pis pos : list string) : string :=
  match pis with [] => "" | p :: r => p +:+ cats (map (fun q => ", " +:+ q) r) end +:+
  cats (map (fun q => ", " +:+ q) pos).
Definition decl (kind : string) (p : string) : string := tab +:+ kind +:+ " " +:+ p +:+ " ;" +:+ nl.
(* 172-187.  Simplification: 1 << size is not truncated to an int. *)
Definition lut_text (l : lut) : string :=
  tab +:+ "LUT" +:+ sdec (length (l_fan l)) +:+ " " +:+ lut_name l +:+ " (" +:+ nl +:+
  cats (map (fun f => tab +:+ tab +:+ f +:+ "," +:+ nl) (l_fan l)) +:+
  tab +:+ tab +:+ wire_name (l_node l) +:+ nl +:+
  tab +:+ ");" +:+ nl +:+
  tab +:+ "defparam " +:+ lut_name l +:+ ".INIT = " +:+ sdec (2 ^ length (l_fan l)) +:+ "'h" +:+ to_hex (l_fn l) +:+ ";" +:+ nl +:+ nl.
(* 189-212 *)
Definition po_text (s : klut) (pm : list (nat * string)) (pos : list string) (x : nat * nat) : option string :=
  name ← pos !! x.1;
  let f := x.2 in
  pi ← kis_pi s f;
  Some (if decide (f <= 1) then tab +:+ "assign " +:+ name +:+ " = 1'b" +:+ sdec f +:+ ";" +:+ nl
        else if (pi : bool) then tab +:+ "assign " +:+ name +:+ " = " +:+ default "" (assoc pm f) +:+ ";" +:+ nl
        else tab +:+ "assign " +:+ name +:+ " = " +:+ wire_name f +:+ " ;" +:+ nl).
(* [ord] is the order in which the unordered set of wires is traversed *)
Definition write_lut (ord : list nat -> list nat) (s : klut) (ps : ports) : option string :=
  pm ← pi_map s ps;
  ls ← luts_from s pm [] 0 (seq 0 (ksize s));
  os ← opt_map (po_text s pm (lut_pos s ps)) (zip (seq 0 (length (kpos s))) (kpos s));
  Some ("module top (" +:+ port_list (lut_pis s ps) (lut_pos s ps) +:+ ");" +:+ nl +:+
        cats (map (decl "input") (lut_pis s ps)) +:+
        cats (map (decl "output") (lut_pos s ps)) +:+
        cats (map (fun n => decl "wire" (wire_name n)) (ord (map l_node ls))) +:+
        cats (map lut_text ls) +:+
        cats os +:+ "endmodule").

(* ---------- write_verilog.hpp:84-310 ---------- *)
(* fmt::join *)
Fixpoint join (sep : string) (l : list string) : string :=
  match l with
  | [] => ""
  | [x] => x
  | x :: r => x +:+ sep +:+ join sep r
  end.
(* 107-168 *)
Definition v_ins (s : aig) (ps : ports) : list string :=
  match in_names ps with [] => map (fun i => "x" +:+ sdec i) (seq 0 (npi s)) | l => l end.
Definition v_outs (s : aig) (ps : ports) : list string :=
  match out_names ps with [] => map (fun i => "y" +:+ sdec i) (seq 0 (npo s)) | l => l end.
Definition gate_name (n : nat) : string := "n" +:+ sdec n.
(* lorina/verilog.hpp:531-534, 550-553 *)
Definition on_decl (kind : string) (names : list string) (given : list string) : string :=
  match given with
  | [] => "  " +:+ kind +:+ " " +:+ join " , " names +:+ " ;" +:+ nl
  | l => cats (map (fun p => "  " +:+ kind +:+ " " +:+ p +:+ " ;" +:+ nl) l)
  end.
(* 222-234: node_names *)
Fixpoint name_pis (ns : list nat) (xs : list string) (nm : list string) : option (list string) :=
  match ns, xs with
  | [], _ => Some nm
  | n :: ns', x :: xs' => name_pis ns' xs' (<[n := x]> nm)
  | _, [] => None
  end.
Definition lit_text (nm : list string) (f : signal) : option string :=
  x ← nm !! sidx f; Some ((if scompl f then "~" else "") +:+ x).
(* 236-303; every gate of an AIG is an AND (aig_network.hpp:1146) *)
Fixpoint v_gates (s : aig) (nm : list string) (l : list nat) : option (string * list string) :=
  match l with
  | [] => Some ("", nm)
  | n :: r =>
      pi ← is_pi s n;
      if bool_decide (n = 0) || pi then v_gates s nm r
      else
        let nm' := <[n := gate_name n]> nm in
        fs ← fanins s n;
        ts ← opt_map (lit_text nm') fs;
        x ← v_gates s nm' r;
        Some ("  assign " +:+ gate_name n +:+ " = " +:+ join " & " ts +:+ " ;" +:+ nl +:+ x.1, x.2)
  end.
(* 305-307, lorina/verilog.hpp:693-699 *)
Definition v_po (nm : list string) (ys : list string) (x : nat * signal) : option string :=
  y ← ys !! x.1;
  t ← lit_text nm x.2;
  Some ("  assign " +:+ y +:+ " = " +:+ t +:+ " ;" +:+ nl).
Definition write_verilog (s : aig) (ps : ports) : option string :=
  if is_combinational s then
    gs ← gates s;
    let ws := map gate_name gs in
    nm ← name_pis (pis s) (v_ins s ps) (<[0 := "1'b0"]> (repeat "" (size s)));
    l ← aig_topo s;
    x ← v_gates s nm l;
    os ← opt_map (v_po x.2 (v_outs s ps)) (zip (seq 0 (length (pos s))) (pos s));
    Some ("module top( " +:+ join " , " (v_ins s ps ++ v_outs s ps) +:+ " );" +:+ nl +:+
          on_decl "input" (v_ins s ps) (in_names ps) +:+
          on_decl "output" (v_outs s ps) (out_names ps) +:+
          match ws with [] => "" | _ => "  wire " +:+ join " , " ws +:+ " ;" +:+ nl end +:+
          x.1 +:+ cats os +:+ "endmodule" +:+ nl)
  else None.

(* ---- specification ---- *)
(* text p is an identifier with the name d: simple, or escaped and closed by a blank *)
Definition ident_text (p d : string) : Prop :=
  (p = d /\ simple_ident d = true) \/
  (p = String "\" d +:+ " " /\ d <> "" /\ Forall (fun c => is_ws c = false) (word_chars d)).
