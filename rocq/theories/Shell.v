(* Model of the command shell's network store and history:
   cli/command/history.hpp, cli/command/io/read_aiger.hpp:21-41, the parts of
   balance.hpp, cleanup.hpp, lut_opt.hpp, rewrite.hpp, refactor.hpp and map_fpga.hpp
   (all in cli/command) that touch the store of AIGs, and
   libs/alice/include/alice/store.hpp.

   An aig_network is a pointer to its storage, and copying it copies the pointer
   (aig_network.hpp: _storage is a shared_ptr); the storages are a list that only
   grows.  Option values are bound to members of the command object: libs/alice/lib/
   cli11/CLI11.hpp:1836-1852 writes a flag only when it is given, so values stay
   from call to call.  The commands that would change the current index of the
   store (alice: cli.hpp:101-108) are not compiled in. *)
From Verif Require Import Base Aig Aiger.

Record shell := Shell {
  heap : list aig;       (* storages *)
  slots : list nat;      (* store<aig_network>: _data *)
  cur : nat;             (* _current, when the store is not empty *)
  hn : nat;              (* history_index + 1 *)
  fclear : bool; fsize : bool; fadd : bool; frep : Z;  (* members of history_command *)
  ftype : Z              (* member of map_fpga_command *)
}.
Definition shell_init : shell := Shell [] [] 0 0 false false false (-1) 0.

Inductive cmd :=
| Read (nb : nat) (g : aig)                  (* read_aiger of a file that denotes g *)
| Fresh (f : aig -> option aig)              (* balance, cleanup, lut_opt: a new network *)
| Inplace (f : aig -> option (aig * aig))    (* rewrite, refactor: the old storage is edited too *)
| History (c s a : bool) (r : option Z)
| Map (t : option Z).

(* the network at an index of the store *)
Definition at_slot (st : shell) (k : nat) : option aig := p ← slots st !! k; heap st !! p.
Definition at_cur (st : shell) : option aig := at_slot st (cur st).
Definition set_store (st : shell) (h : list aig) (l : list nat) : shell :=
  Shell h l (cur st) (hn st) (fclear st) (fsize st) (fadd st) (frep st) (ftype st).
(* store.hpp:81-89 operator[] throws when the index is out of bounds *)
Definition put_slot (k : nat) (p : nat) (st : shell) : option shell :=
  if decide (k < length (slots st)) then Some (set_store st (heap st) (<[k := p]> (slots st))) else None.

(* read_aiger.hpp:21-41; the new networks have their own storages *)
Definition exec_read (nb : nat) (g : aig) (st : shell) : shell :=
  let n := length (heap st) in
  Shell (heap st ++ repeat (aig_init_n nb) 5 ++ [g]) (seq n 6) 5 (hn st) (fclear st) (fsize st) (fadd st) (frep st) (ftype st).

(* history.hpp:21-61 execute; the number is what --size prints *)
Definition exec_history (st : shell) : option (shell * option nat) :=
  match slots st with
  | [] => Some (st, None)
  | _ =>
      p ← slots st !! cur st;
      st1 ← (if fadd st && bool_decide (hn st <= 5)
             then st' ← put_slot (hn st) p st;
                  Some (Shell (heap st') (slots st') (cur st') (hn st + 1) (fclear st') (fsize st') (fadd st') (frep st') (ftype st'))
             else Some st);
      if decide (5 < hn st1) then Some (st1, None)
      else
        p' ← slots st1 !! cur st1;
        st2 ← (if decide (frep st1 = -1)%Z then Some st1
               else if decide (Z.of_nat (hn st1) - 1 < frep st1 \/ frep st1 < -1)%Z then Some st1
               else put_slot (Z.to_nat (frep st1)) p' st1);
        let h := if fclear st2 then 0 else hn st2 in
        Some (Shell (heap st2) (slots st2) (cur st2) h false false false (-1) (ftype st2), if fsize st2 then Some h else None)
  end.

(* map_fpga.hpp:74-92: the networks given to the choice miter, newest slot first *)
Fixpoint networks_at (st : shell) (l : list nat) : option (list aig) :=
  match l with
  | [] => Some []
  | i :: r => g ← at_slot st i; gs ← networks_at st r; Some (if decide (0 < num_gates g)%N then g :: gs else gs)
  end.
Definition choice_inputs (st : shell) : option (list aig) := networks_at st (rev (seq 0 (length (slots st) - 1))).

(* what a command shows of the AIGs: the size of the history, the networks mapped *)
Inductive shown := Nothing | Size (n : nat) | Mapped (gs : list aig).

Definition exec (c : cmd) (st : shell) : option (shell * shown) :=
  match c with
  | Read nb g => Some (exec_read nb g st, Nothing)
  | Fresh f =>
      match slots st with
      | [] => Some (st, Nothing)
      | _ => g ← at_cur st; d ← f g;
             st' ← put_slot (cur st) (length (heap st)) (set_store st (heap st ++ [d]) (slots st)); Some (st', Nothing)
      end
  | Inplace f =>
      match slots st with
      | [] => Some (st, Nothing)
      | _ => p ← slots st !! cur st; g ← heap st !! p; '(e, d) ← f g;
             st' ← put_slot (cur st) (length (heap st)) (set_store st (<[p := e]> (heap st) ++ [d]) (slots st)); Some (st', Nothing)
      end
  | History c s a r =>
      let st' := Shell (heap st) (slots st) (cur st) (hn st) (fclear st || c) (fsize st || s) (fadd st || a)
                   (match r with Some z => z | None => frep st end) (ftype st) in
      '(st2, o) ← exec_history st'; Some (st2, match o with Some n => Size n | None => Nothing end)
  | Map t =>
      let st' := Shell (heap st) (slots st) (cur st) (hn st) (fclear st) (fsize st) (fadd st) (frep st)
                   (match t with Some z => z | None => ftype st end) in
      match slots st with
      | [] => Some (st', Nothing)
      | _ => if decide (ftype st' <> 0 /\ ftype st' <> 1)%Z then Some (st', Nothing)
             else if decide (ftype st' = 1)%Z then gs ← choice_inputs st'; Some (st', Mapped gs)
             else g ← at_cur st'; Some (st', Mapped [g])
      end
  end.

(* ---- specification ---- *)
(* states after some commands *)
Inductive shell_state : shell -> Prop :=
| sh_init : shell_state shell_init
| sh_step st c st' o : shell_state st -> exec c st = Some (st', o) -> shell_state st'.
(* c writes slot k: it reads a new file, or adds or replaces at k *)
Definition writes (k : nat) (st : shell) (c : cmd) : Prop :=
  match c with
  | Read _ _ => True
  | History _ _ a r => (fadd st || a = true /\ hn st = k) \/ match r with Some z => z | None => frep st end = Z.of_nat k
  | _ => False
  end.
(* commands none of which writes slot k *)
Inductive keeping (k : nat) : shell -> list cmd -> shell -> Prop :=
| keep_nil st : keeping k st [] st
| keep_cons st c st1 o cs st' : ~ writes k st c -> exec c st = Some (st1, o) -> keeping k st1 cs st' -> keeping k st (c :: cs) st'.
(* does not replace the current network *)
Definition idle (c : cmd) : Prop := match c with History _ _ _ _ | Map _ => True | _ => False end.
