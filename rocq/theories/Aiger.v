(* Binary AIGER: include/operations/io/detail/write_aiger.hpp,
   include/operations/io/detail/aiger_reader.hpp, the parser
   libs/lorina/lorina/aiger.hpp (read_aiger) with its helpers
   libs/lorina/lorina/detail/utils.hpp, and include/operations/io/reader.hpp.

   Files are lists of bytes ([N], 0..255).  [None] is undefined behaviour, a
   failed assertion or non-termination, as everywhere in the model.
   Not modelled: opening and writing files, locale dependence of isalpha,
   diagnostics. *)
From Verif Require Import Base Aig AigSem Clean.
Local Open Scope N_scope.

Notation bytes := (list N).

(* ---------------------------------------------------------------- *)
(* write_aiger.hpp:32-43 encode.  A 32-bit number takes at most 5 rounds. *)
Fixpoint encode_go (fuel : nat) (lit : N) : option bytes :=
  match fuel with
  | O => None
  | S f =>
      if decide (lit < 128) then Some [lit]  (* !(lit & ~0x7f) *)
      else r ← encode_go f (lit / 128); Some ((lit mod 128 + 128) :: r)
  end.
Definition encode (lit : N) : option bytes := encode_go 5 lit.

(* sprintf "%u" of a 32-bit number: at most 10 digits *)
Fixpoint dec_go (fuel : nat) (n : N) : bytes :=
  match fuel with
  | O => []
  | S f => if decide (n < 10) then [48 + n] else dec_go f (n / 10) ++ [48 + n mod 10]
  end.
Definition dec (n : N) : bytes := dec_go 10 n.

(* literal of a signal as the writer prints it, uint32_t *)
Definition lit32 (f : signal) : N := u32 (N.of_nat (sdata f)).

(* aig_network.hpp:763-766 num_gates; 1083-1089 foreach_gate *)
Definition num_gates (s : aig) : N := u32 (ne s).
Fixpoint gates_from (s : aig) (ns : list nat) : option (list nat) :=
  match ns with
  | [] => Some []
  | n :: r => ci ← is_ci s n; d ← is_dead s n; l ← gates_from s r;
              Some (if negb ci && negb d then n :: l else l)
  end.
Definition gates (s : aig) : option (list nat) := gates_from s (seq 1 (size s - 1)).

(* write_aiger.hpp:97-115: the bytes of one gate *)
Definition write_gate (s : aig) (n : nat) : option bytes :=
  k ← ks s !! n;
  let g := u32 (2 * N.of_nat n) in
  let '(l1, l2) := if decide (lit32 k.2 < lit32 k.1) then (lit32 k.2, lit32 k.1) else (lit32 k.1, lit32 k.2) in
  if decide (l2 < g) then
    d1 ← encode (g - l2); d2 ← encode (l2 - l1); Some (d1 ++ d2)
  else None (* assert( lits[2] < lits[0] ) *).
Fixpoint write_gates (s : aig) (ns : list nat) : option bytes :=
  match ns with
  | [] => Some []
  | n :: r => b ← write_gate s n; l ← write_gates s r; Some (b ++ l)
  end.

Definition nl : N := 10.
Definition sp : N := 32.
(* "aig" *)
Definition magic : bytes := [97; 105; 103].

(* write_aiger.hpp:64-150.  aig_network has no names, so no symbol table. *)
Definition write_aiger (s : aig) : option bytes :=
  if is_combinational s then
    let m := u32 (N.of_nat (length (ins s)) + num_gates s) in
    let header := magic ++ sp :: dec m ++ sp :: dec (u32 (N.of_nat (npi s))) ++ sp :: dec 0 ++
                  sp :: dec (u32 (N.of_nat (npo s))) ++ sp :: dec (num_gates s) ++ [nl] in
    let pos_lines := concat (map (fun f => dec (lit32 f) ++ [nl]) (pos s)) in
    gs ← gates s;
    b ← write_gates s gs;
    Some (header ++ pos_lines ++ b ++ [99])
  else None.

(* ---------------------------------------------------------------- *)
(* std::istream: unread bytes, eofbit, failbit *)
Record stream := Str { rest : bytes; eofb : bool; failb : bool }.
Definition good (st : stream) : bool := negb (eofb st) && negb (failb st).

(* characters up to a line end (\n, \r or \r\n); None: end of file *)
Fixpoint scan (l : bytes) : bytes * option bytes :=
  match l with
  | [] => ([], None)
  | c :: r =>
      if decide (c = 10) then ([], Some r)
      else if decide (c = 13) then
        ([], Some match r with 10 :: r' => r' | _ => r end)
      else let '(t, e) := scan r in (c :: t, e)
  end.

(* lorina detail/utils.hpp:58-99 getline.  The sentry sets failbit on a stream
   that is not good; the characters are then read from the buffer regardless. *)
Definition getline (st : stream) : bytes * stream :=
  let fb := failb st || negb (good st) in
  let '(t, e) := scan (rest st) in
  match e with
  | Some r => (t, Str r (eofb st) fb)
  | None => (t, Str [] (eofb st || bool_decide (t = [])) fb)
  end.

(* std::istream::get(): -1 at the end of file or on a stream that is not good *)
Definition getc (st : stream) : Z * stream :=
  if good st then
    match rest st with
    | c :: r => (Z.of_N c, Str r (eofb st) (failb st))
    | [] => ((-1)%Z, Str [] true true)
    end
  else ((-1)%Z, Str (rest st) (eofb st) true).

(* lorina aiger.hpp:825-839 decode.  The meaning of << on int is a parameter:
   C++17 leaves it undefined for a shift by 32 or more and when the result does
   not fit 32 bits (shl_int); what a processor does is some total function. *)
Inductive dres := DOk (res : Z) (st : stream) | DUb | DFuel.
Fixpoint decode_with (shl : Z -> Z -> option Z) (fuel : nat) (i : Z) (res : Z) (st : stream) : dres :=
  match fuel with
  | O => DFuel
  | S f =>
      let '(c, st') := getc st in
      match shl (Z.land c 127) (7 * i)%Z with
      | None => DUb
      | Some x =>
          let res' := Z.lor res x in
          if decide (Z.land c 128 = 0%Z) then DOk res' st'
          else decode_with shl f (i + 1) res' st'
      end
  end.

(* conversion to int *)
Definition wrap32 (z : Z) : Z := ((z + 2 ^ 31) mod 2 ^ 32 - 2 ^ 31)%Z.
Definition shl_int (x k : Z) : option Z :=
  if decide (k < 32 /\ x * 2 ^ k < 2 ^ 32)%Z then Some (wrap32 (x * 2 ^ k)) else None.
(* the sixth byte is already shifted by 35 *)
Definition decode (st : stream) : option (Z * stream) :=
  match decode_with shl_int 6 0 0 st with DOk r st' => Some (r, st') | _ => None end.

(* ---------------------------------------------------------------- *)
(* numbers in text *)
Definition is_digit (c : N) : bool := bool_decide (48 <= c <= 57).
Definition is_space (c : N) : bool := bool_decide (c = 32 \/ 9 <= c <= 13).
Fixpoint take_digits (l : bytes) : bytes * bytes :=
  match l with
  | c :: r => if is_digit c then let '(d, e) := take_digits r in (c :: d, e) else ([], l)
  | [] => ([], [])
  end.
Definition digits_val (d : bytes) : N := fold_left (fun a c => 10 * a + (c - 48)) d 0.
Fixpoint skip_space (l : bytes) : bytes :=
  match l with c :: r => if is_space c then skip_space r else l | [] => [] end.
(* strtol; a value outside the type is undefined behaviour for atol and atoi *)
Definition ato (lo hi : Z) (l : bytes) : option Z :=
  let l := skip_space l in
  let '(neg, l) := match l with
                   | 45 :: r => (true, r)
                   | 43 :: r => (false, r)
                   | _ => (false, l)
                   end in
  let v := Z.of_N (digits_val (take_digits l).1) in
  let v := if neg : bool then (- v)%Z else v in
  if decide (lo <= v <= hi)%Z then Some v else None.
Definition atol : bytes -> option Z := ato (- 2 ^ 63) (2 ^ 63 - 1).
Definition atoi : bytes -> option Z := ato (- 2 ^ 31) (2 ^ 31 - 1).
(* conversion to uint32_t *)
Definition to_u32 (z : Z) : N := Z.to_N (z mod 2 ^ 32).

(* lorina aiger.hpp:428, matched at 711: ^aig (\d+) (\d+) (\d+) (\d+) (\d+)( \d+)?( \d+)?( \d+)?( \d+)?$
   i.e. "aig" and 5 to 9 groups of a space and digits *)
Fixpoint num_groups (fuel : nat) (l : bytes) : option (list bytes) :=
  match fuel with
  | O => None
  | S f =>
      match l with
      | [] => Some []
      | c :: r =>
          if decide (c = sp) then
            let '(d, e) := take_digits r in
            if decide (d = []) then None else g ← num_groups f e; Some (d :: g)
          else None
      end
  end.
Definition match_header (l : bytes) : option (list bytes) :=
  match l with
  | a :: b :: c :: r =>
      if decide ([a; b; c] = magic) then
        g ← num_groups (S (length r)) r;
        if decide (5 <= length g <= 9)%nat then Some g else None
      else None
  | _ => None
  end.

(* lorina aiger.hpp:430-436: ^i(\d+) (.* )$ and the like: letter, index, name *)
Definition match_name (l : bytes) : option (N * bytes * bytes) :=
  match l with
  | c :: r =>
      let '(d, e) := take_digits r in
      if decide (d = []) then None
      else match e with
           | x :: name => if decide (x = sp) then Some (c, d, name) else None
           | [] => None
           end
  | [] => None
  end.

(* detail/utils.hpp:281-306 split at single spaces: non-empty pieces, and the
   last piece always *)
Fixpoint split_sp (l cur : bytes) : list bytes :=
  match l with
  | [] => [rev cur]
  | c :: r =>
      if decide (c = sp) then
        (if decide (cur = []) then split_sp r [] else rev cur :: split_sp r [])
      else split_sp r (c :: cur)
  end.

(* ---------------------------------------------------------------- *)
(* aiger_reader.hpp:260-266: the members.  NameMap (lines 27-88) is the list of
   insertions; _names[s] are the names inserted for s, in order. *)
Record rd := Rd {
  r_sigs : list signal;
  r_outs : list (N * bytes);
  r_lats : list (N * Z * bytes);
  r_names : list (signal * bytes)
}.
Definition rd0 : rd := Rd [] [] [] [].
(* aiger_reader.hpp:35-56 NameMap::insert; empty names are dropped *)
Definition add_name (f : signal) (name : bytes) (l : list (signal * bytes)) : list (signal * bytes) :=
  if decide (name = []) then l else l ++ [(f, name)].
Definition names_of (l : list (signal * bytes)) (f : signal) : list bytes :=
  map snd (filter (fun x => x.1 = f) l).

(* aiger_reader.hpp:168-195 on_header *)
Definition on_header (ni nlat : N) : M aig (list signal) :=
  let! pi := mapM (fun _ => create_pi) (seq 0 (N.to_nat ni)) in
  let! ro := mapM (fun _ => create_ro) (seq 0 (N.to_nat nlat)) in
  ret (get_constant false :: pi ++ ro).

(* signals[lit >> 1], with create_not for odd literals *)
Definition sig_of_lit (sigs : list signal) (lit : N) : option signal :=
  f ← sigs !! N.to_nat (lit / 2);
  Some (if N.odd lit then snot f else f).

(* aiger_reader.hpp:222-240 on_and *)
Definition on_and (index left_lit right_lit : N) (sigs : list signal) : M aig (list signal) :=
  if decide (N.of_nat (length sigs) = index) then
    let! a := lift (sig_of_lit sigs left_lit) in
    let! b := lift (sig_of_lit sigs right_lit) in
    let! f := create_and a b in
    ret (sigs ++ [f])
  else fail (* assert( signals.size() == index ) *).

(* aiger_reader.hpp:197-220 on_input_name, on_output_name, on_latch_name *)
Definition on_input_name (index : N) (name : bytes) (r : rd) : option rd :=
  f ← r_sigs r !! N.to_nat (u32 (1 + index));
  Some (Rd (r_sigs r) (r_outs r) (r_lats r) (add_name f name (r_names r))).
Definition on_output_name (index : N) (name : bytes) (r : rd) : option rd :=
  '(lit, _) ← r_outs r !! N.to_nat index;
  Some (Rd (r_sigs r) (<[N.to_nat index := (lit, name)]> (r_outs r)) (r_lats r) (r_names r)).
Definition on_latch_name (ninputs index : N) (name : bytes) (r : rd) : option rd :=
  f ← r_sigs r !! N.to_nat (u32 (1 + ninputs + index));
  '(nxt, reset, _) ← r_lats r !! N.to_nat index;
  Some (Rd (r_sigs r) (r_outs r) (<[N.to_nat index := (nxt, reset, name)]> (r_lats r))
           (add_name f name (r_names r))).

(* a counted loop *)
Fixpoint times {S} (n : nat) (f : S -> option S) (s : S) : option S :=
  match n with O => Some s | S n' => s' ← f s; times n' f s' end.

(* lorina aiger.hpp:754-774: one latch line; on_latch (aiger_reader.hpp:242-250) *)
Definition read_latch (x : list (N * Z * bytes) * stream) : option (list (N * Z * bytes) * stream) :=
  let '(lats, st) := x in
  let '(line, st) := getline st in
  let tokens := split_sp line [] in
  t0 ← tokens !! 0%nat;
  nxt ← atoi t0;
  let reset := match tokens with
               | [_; t1] => if decide (t1 = [48]) then 0%Z else if decide (t1 = [49]) then 1%Z else (-1)%Z
               | _ => (-1)%Z
               end in
  Some (lats ++ [(to_u32 nxt, reset, [])], st).

(* aiger.hpp:776-780, on_output (aiger_reader.hpp:252-257) *)
Definition read_output (x : list (N * bytes) * stream) : option (list (N * bytes) * stream) :=
  let '(outs, st) := x in
  let '(line, st) := getline st in
  lit ← atol line;
  Some (outs ++ [(to_u32 lit, [])], st).

(* aiger.hpp:782-794, 818-823: bad states, constraints, fairness; the callbacks
   of lorina::aiger_reader do nothing *)
Definition read_number (st : stream) : option stream :=
  let '(line, st) := getline st in _ ← atol line; Some st.
(* aiger.hpp:796-816: justice properties; sizes are uint64_t *)
Definition read_size (x : list N * stream) : option (list N * stream) :=
  let '(sizes, st) := x in
  let '(line, st) := getline st in
  z ← atol line; Some (sizes ++ [Z.to_N (z mod 2 ^ 64)], st).
Fixpoint read_justice (sizes : list N) (st : stream) : option stream :=
  match sizes with
  | [] => Some st
  | z :: r => st' ← times (N.to_nat z) read_number st; read_justice r st'
  end.

(* aiger.hpp:841-848: the gates; i, g, d1 and d2 are combined as unsigned *)
Fixpoint read_ands (n : nat) (i : N) (sigs : list signal) (st : stream) (d : aig)
  : option (list signal * stream * aig) :=
  match n with
  | O => Some (sigs, st, d)
  | S n' =>
      '(d1, st1) ← decode st;
      '(d2, st2) ← decode st1;
      let g := Z.of_N (u32 (2 * i)) in
      '(sigs', d') ← on_and i (to_u32 (g - d1)) (to_u32 (g - d1 - d2)) sigs d;
      read_ands n' (i + 1) sigs' st2 d'
  end.

(* aiger.hpp:850-892: names and comments *)
Definition name_line (ninputs : N) (line : bytes) (r : rd) : option rd :=
  match match_name line with
  | Some (c, d, name) =>
      if decide (c ∈ [105; 108; 111; 98; 99; 106; 102]) then (* i l o b c j f *)
        idx ← atol d;
        if decide (c = 105) then on_input_name (to_u32 idx) name r
        else if decide (c = 108) then on_latch_name ninputs (to_u32 idx) name r
        else if decide (c = 111) then on_output_name (to_u32 idx) name r
        else Some r
      else Some r
  | None => Some r
  end.
Fixpoint read_names (fuel : nat) (ninputs : N) (r : rd) (st : stream) : option rd :=
  match fuel with
  | O => None
  | S f =>
      let '(line, st') := getline st in
      if failb st' then Some r
      else if decide (line = [99]) then Some r
      else r' ← name_line ninputs line r; read_names f ninputs r' st'
  end.

(* aiger_reader.hpp:133-166: the destructor creates the outputs *)
Definition finish_output (sigs : list signal) (names : list (signal * bytes)) (o : N * bytes)
  : M aig (list (signal * bytes)) :=
  let! f := lift (sig_of_lit sigs o.1) in
  create_po f ;;; ret (add_name f o.2 names).
Definition finish_latch (sigs : list signal) (names : list (signal * bytes)) (o : N * Z * bytes)
  : M aig (list (signal * bytes)) :=
  let! f := lift (sig_of_lit sigs o.1.1) in
  (* "_next" *)
  create_ri f o.1.2 ;;; ret (add_name f (o.2 ++ [95; 110; 101; 120; 116]) names).
Definition finish (r : rd) : M aig (list (signal * bytes)) :=
  let! n1 := foldM (finish_output (r_sigs r)) (r_names r) (r_outs r) in
  foldM (finish_latch (r_sigs r)) n1 (r_lats r).

(* lorina aiger.hpp:701-895 read_aiger with the callbacks of aiger_reader and a
   NameMap.  [Some None] is return_code::parse_error. *)
Definition read_aiger (buckets : nat) (file : bytes) : option (option (aig * list (signal * bytes))) :=
  let '(line, st) := getline (Str file false false) in
  match match_header line with
  | None => Some None
  | Some g =>
      zs ← mapM (S := unit) (fun d => lift (atol d)) g tt;
      let h := map to_u32 zs.1 in
      let fld k := default 0 (h !! k) in
      let ni := fld 1%nat in let nlat := fld 2%nat in let no := fld 3%nat in let na := fld 4%nat in
      '(sigs0, d0) ← on_header ni nlat (aig_init_n buckets);
      '(lats, st) ← times (N.to_nat nlat) read_latch ([], st);
      '(outs, st) ← times (N.to_nat no) read_output ([], st);
      st ← times (N.to_nat (fld 5%nat)) read_number st;
      st ← times (N.to_nat (fld 6%nat)) read_number st;
      '(sizes, st) ← times (N.to_nat (fld 7%nat)) read_size ([], st);
      st ← read_justice sizes st;
      st ← times (N.to_nat (fld 8%nat)) read_number st;
      let first := u32 (ni + nlat + 1) in
      let last := u32 (ni + nlat + na + 1) in
      '(sigs, st, d) ← read_ands (N.to_nat (last - first)) first sigs0 st d0;
      r ← read_names (S (S (S (length (rest st))))) ni (Rd sigs outs lats []) st;
      '(names, d') ← finish r d;
      Some (Some (d', names))
  end.

(* ---------------------------------------------------------------- *)
(* reader.hpp:43-63 is_simple_char, is_simple_identifier, to_escaped_identifier *)
Definition is_alpha (c : N) : bool := bool_decide (65 <= c <= 90 \/ 97 <= c <= 122).
Definition is_simple (name : bytes) : bool :=
  match name with
  | c :: _ => (is_alpha c || bool_decide (c = 95)) &&
              forallb (fun c => is_alpha c || bool_decide (c = 95) || bool_decide (c = 36)) name
  | [] => false
  end.
Definition escape (name : bytes) : bytes := if is_simple name then name else 92 :: name ++ [32].

(* reader.hpp:137-160: port names from the NameMap.  [used] are the signals for
   which a name was taken so far (signalCount); names[k] past the end is
   undefined. *)
Fixpoint port_names (m : list (signal * bytes)) (used : list signal) (fs : list signal)
  : option (list bytes * list signal) :=
  match fs with
  | [] => Some ([], used)
  | f :: r =>
      match names_of m f with
      | [] => port_names m used r
      | ns => n ← ns !! length (filter (eq f) used);
              '(l, used') ← port_names m (used ++ [f]) r;
              Some (escape n :: l, used')
      end
  end.
(* reader.hpp:117-166: network, input port names, output port names *)
Definition reader (buckets : nat) (file : bytes) : option (option (aig * list bytes * list bytes)) :=
  r ← read_aiger buckets file;
  match r with
  | None => Some None
  | Some (d, m) =>
      '(ip, used) ← port_names m [] (map (fun n => Sig n false) (ins d));
      '(op, _) ← port_names m used (outs d);
      Some (Some (d, ip, op))
  end.

(* ---------------------------------------------------------------- *)
(* ---- specification ---- *)
(* The networks the file format can hold: no latches, the inputs are the first
   nodes, fanins come before their gates, no gate is dead and all are counted,
   and literals fit 32 bits. *)
Record clean (s : aig) : Prop := {
  cl_net : network s;
  cl_comb : is_combinational s = true;
  cl_ins : ins s = seq 1 (length (ins s));
  cl_order : forall n m, fanin s n m -> (m < n)%nat;
  cl_alive : forall n, is_gate s n -> is_dead s n = Some false;
  cl_count : ne s = N.of_nat (size s - 1 - length (ins s));
  cl_size : N.of_nat (size s) < 2 ^ 31;
  cl_outs : N.of_nat (npo s) < 2 ^ 32
}.

(* symbol table lines of the format: letter, position, name *)
Fixpoint sym_lines (c : N) (k : nat) (names : list bytes) : bytes :=
  match names with
  | [] => []
  | n :: r => c :: dec (N.of_nat k) ++ sp :: n ++ nl :: sym_lines c (S k) r
  end.
(* names a line can hold *)
Definition nameable (n : bytes) : Prop := n <> [] /\ Forall (fun c => c <> 10 /\ c <> 13) n.
