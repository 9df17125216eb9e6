(* ---- specification ----
   Reading of the structural Verilog written by iMap: a lexer, a parser and the
   meaning of a module.  This file is independent of the writers. *)
From Coq Require Export Ascii.
From stdpp Require Export strings.
From Verif Require Import Base.
Local Open Scope char_scope.
Local Open Scope string_scope.
Local Open Scope list_scope.
Local Open Scope nat_scope.

(* ---------- characters ---------- *)
Definition code (c : ascii) : nat := Ascii.nat_of_ascii c.
Definition between (a b : ascii) (c : ascii) : bool := (code a <=? code c) && (code c <=? code b).
Definition is_digit := between "0" "9".
Definition is_letter (c : ascii) : bool := between "a" "z" c || between "A" "Z" c.
Definition is_ws (c : ascii) : bool := (code c =? 32) || (between "009" "013" c).
(* characters of simple identifiers and of sized numbers *)
Definition is_wordc (c : ascii) : bool :=
  is_letter c || is_digit c || Ascii.eqb c "_" || Ascii.eqb c "$" || Ascii.eqb c "'".

(* ---------- tokens ---------- *)
Inductive token := Word (s : string) | Esc (s : string) | Sym (c : ascii).
Fixpoint srev (acc s : string) : string :=
  match s with EmptyString => acc | String c r => srev (String c acc) r end.
Definition flush (w : string) : list token :=
  match w with EmptyString => [] | _ => [Word (srev "" w)] end.
(* w: characters of the current word, reversed; esc: inside an escaped identifier *)
Fixpoint lex (esc : bool) (w : string) (s : string) : list token :=
  match s with
  | EmptyString => if esc then [Esc (srev "" w)] else flush w
  | String c r =>
      if esc then if is_ws c then Esc (srev "" w) :: lex false "" r else lex true (String c w) r
      else if is_wordc c then lex false (String c w) r
      else if is_ws c then flush w ++ lex false "" r
      else if Ascii.eqb c "\" then flush w ++ lex true "" r
      else flush w ++ Sym c :: lex false "" r
  end.

(* ---------- words ---------- *)
Definition keywords : list string := ["module"; "endmodule"; "input"; "output"; "wire"; "assign"; "defparam"].
Definition word_chars (s : string) : list ascii := String.list_ascii_of_string s.
Definition simple_ident (s : string) : bool :=
  match word_chars s with
  | [] => false
  | c :: l => (is_letter c || Ascii.eqb c "_") &&
      forallb (fun c => is_letter c || is_digit c || Ascii.eqb c "_" || Ascii.eqb c "$") l
  end && negb (bool_decide (s ∈ keywords)).
(* the name denoted by an identifier token *)
Definition ident (t : token) : option string :=
  match t with
  | Word s => if simple_ident s then Some s else None
  | Esc s => if decide (s = "") then None else Some s
  | Sym _ => None
  end.

(* decimal and hexadecimal numerals, up to the first other character *)
Fixpoint undec (v : nat) (s : string) : nat * string :=
  match s with
  | EmptyString => (v, s)
  | String c r => if is_digit c then undec (10 * v + (code c - code "0")) r else (v, s)
  end.
Definition hexval (c : ascii) : option N :=
  if is_digit c then Some (N.of_nat (code c - code "0"))
  else if between "a" "f" c then Some (N.of_nat (10 + code c - code "a"))
  else if between "A" "F" c then Some (N.of_nat (10 + code c - code "A"))
  else None.
Fixpoint unhex (v : N) (s : string) : option N :=
  match s with
  | EmptyString => Some v
  | String c r => d ← hexval c; unhex (16 * v + d) r
  end.
Fixpoint unbin (v : N) (s : string) : option N :=
  match s with
  | EmptyString => Some v
  | String c r => if Ascii.eqb c "0" then unbin (2 * v) r else if Ascii.eqb c "1" then unbin (2 * v + 1) r else None
  end.
(* size and value of a sized number *)
Definition nonempty (s : string) : bool := match s with EmptyString => false | _ => true end.
Definition number (w : string) : option (nat * N) :=
  match w with
  | String c _ =>
      if is_digit c then
        match undec 0 w with
        | (sz, String q (String b h)) =>
            if Ascii.eqb q "'" && nonempty h then
              if Ascii.eqb b "h" then v ← unhex 0 h; Some (sz, v)
              else if Ascii.eqb b "b" then v ← unbin 0 h; Some (sz, v)
              else None
            else None
        | _ => None
        end
      else None
  | _ => None
  end.
(* LUTk: a look-up table with k inputs *)
Definition lut_arity (w : string) : option nat :=
  match w with
  | String "L" (String "U" (String "T" r)) =>
      if nonempty r then match undec 0 r with (k, EmptyString) => Some k | _ => None end else None
  | _ => None
  end.

(* ---------- syntax ---------- *)
Inductive operand := OId (d : string) | OConst (b : bool).
(* conjunction of operands, each possibly complemented *)
Definition expr := list (bool * operand).
Inductive item :=
| IIn (l : list string) | IOut (l : list string) | IWire (l : list string)
| IAssign (d : string) (e : expr)
| ILut (k : nat) (inst : string) (conns : list string)
| IInit (inst : string) (sz : nat) (v : N).
Record vmod := VMod { vname : string; vports : list string; vitems : list item }.

(* one or more identifiers separated by commas *)
Fixpoint p_ids (l : list token) : option (list string * list token) :=
  match l with
  | t :: l' =>
      d ← ident t;
      match l' with
      | Sym "," :: r => x ← p_ids r; Some (d :: fst x, snd x)
      | _ => Some ([d], l')
      end
  | [] => None
  end.
Definition p_operand (l : list token) : option (operand * list token) :=
  match l with
  | t :: r =>
      match ident t, t with
      | Some d, _ => Some (OId d, r)
      | None, Word w => match number w with Some (1, 0%N) => Some (OConst false, r) | Some (1, 1%N) => Some (OConst true, r) | _ => None end
      | _, _ => None
      end
  | [] => None
  end.
Definition p_literal (l : list token) : option (bool * operand * list token) :=
  match l with
  | Sym "~" :: r => x ← p_operand r; Some (true, fst x, snd x)
  | _ => x ← p_operand l; Some (false, fst x, snd x)
  end.
(* terms separated by &, up to the semicolon *)
Fixpoint p_expr (fuel : nat) (l : list token) : option (expr * list token) :=
  match fuel with
  | O => None
  | S f =>
      x ← p_literal l;
      match snd x with
      | Sym "&" :: r => y ← p_expr f r; Some (fst x :: fst y, snd y)
      | Sym ";" :: r => Some ([fst x], r)
      | _ => None
      end
  end.
Definition p_list (f : list string -> item) (l : list token) : option (item * list token) :=
  x ← p_ids l;
  match snd x with Sym ";" :: r => Some (f (fst x), r) | _ => None end.
Definition p_lut (k : nat) (l : list token) : option (item * list token) :=
  match l with
  | t :: Sym "(" :: r =>
      d ← ident t;
      x ← p_ids r;
      match snd x with Sym ")" :: Sym ";" :: r' => Some (ILut k d (fst x), r') | _ => None end
  | _ => None
  end.
Definition p_item (l : list token) : option (item * list token) :=
  match l with
  | Word w :: r =>
      if decide (w = "input") then p_list IIn r
      else if decide (w = "output") then p_list IOut r
      else if decide (w = "wire") then p_list IWire r
      else if decide (w = "assign") then
        match r with
        | t :: Sym "=" :: r' => d ← ident t; x ← p_expr (length r') r'; Some (IAssign d (fst x), snd x)
        | _ => None
        end
      else if decide (w = "defparam") then
        match r with
        | t :: Sym "." :: Word p :: Sym "=" :: Word n :: Sym ";" :: r' =>
            d ← ident t;
            if decide (p = "INIT") then x ← number n; Some (IInit d (fst x) (snd x), r') else None
        | _ => None
        end
      else k ← lut_arity w; p_lut k r
  | _ => None
  end.
Fixpoint p_items (fuel : nat) (l : list token) : option (list item) :=
  match fuel with
  | O => None
  | S f =>
      match l with
      | Word w :: r =>
          if decide (w = "endmodule") then match r with [] => Some [] | _ => None end
          else x ← p_item l; y ← p_items f (snd x); Some (fst x :: y)
      | _ => None
      end
  end.
Definition p_module (l : list token) : option vmod :=
  match l with
  | Word w :: t :: Sym "(" :: r =>
      if decide (w = "module") then
        n ← ident t;
        x ← match r with Sym ")" :: _ => Some ([], r) | _ => p_ids r end;
        match snd x with
        | Sym ")" :: Sym ";" :: r' => y ← p_items (length r') r'; Some (VMod n (fst x) y)
        | _ => None
        end
      else None
  | _ => None
  end.
Definition read_module (s : string) : option vmod := p_module (lex false "" s).

(* ---------- static rules ---------- *)
Definition d_in (m : vmod) : list string := flat_map (fun i => match i with IIn l => l | _ => [] end) (vitems m).
Definition d_out (m : vmod) : list string := flat_map (fun i => match i with IOut l => l | _ => [] end) (vitems m).
Definition d_wire (m : vmod) : list string := flat_map (fun i => match i with IWire l => l | _ => [] end) (vitems m).
Definition insts (m : vmod) : list string := flat_map (fun i => match i with ILut _ d _ => [d] | _ => [] end) (vitems m).
Definition params (m : vmod) : list string := flat_map (fun i => match i with IInit d _ _ => [d] | _ => [] end) (vitems m).
(* nets with a driver, with multiplicity, and nets that are read *)
Definition driven (m : vmod) : list string :=
  flat_map (fun i => match i with IAssign d _ => [d] | ILut k _ l => drop k l | _ => [] end) (vitems m).
Definition reads (m : vmod) : list string :=
  flat_map (fun i => match i with
    | IAssign _ e => flat_map (fun x => match x.2 with OId d => [d] | OConst _ => [] end) e
    | ILut k _ l => take k l
    | _ => [] end) (vitems m).
(* every name is declared once; the ports are the declared inputs and outputs;
   inputs are not driven, other nets at most once; what is read has a value and
   so has every output; every table has its contents, of the right size *)
Record legal (m : vmod) : Prop := {
  lg_names : NoDup (d_in m ++ d_out m ++ d_wire m ++ insts m);
  lg_ports : vports m ≡ₚ d_in m ++ d_out m;
  lg_driven : NoDup (driven m) /\ Forall (fun d => d ∈ d_out m ++ d_wire m) (driven m);
  lg_reads : Forall (fun d => d ∈ d_in m ++ driven m) (reads m);
  lg_out : Forall (fun d => d ∈ driven m) (d_out m);
  lg_init : NoDup (params m) /\ Forall (fun d => d ∈ insts m) (params m) /\
    forall k d l, ILut k d l ∈ vitems m -> length l = S k /\ exists v, IInit d (2 ^ k) v ∈ vitems m
}.

(* ---------- meaning ---------- *)
Definition oval (rho : string -> bool) (o : operand) : bool := match o with OId d => rho d | OConst b => b end.
Definition eval_expr (rho : string -> bool) (e : expr) : bool := forallb (fun x => xorb x.1 (oval rho x.2)) e.
(* position selected by the values of the inputs, the first being the least significant *)
Fixpoint select (l : list bool) : N :=
  match l with [] => 0 | b :: r => N.b2n b + 2 * select r end%N.
(* the values of the nets satisfy all continuous assignments and instances *)
Definition consistent (m : vmod) (rho : string -> bool) : Prop :=
  (forall d e, IAssign d e ∈ vitems m -> rho d = eval_expr rho e) /\
  (forall k d l sz v, ILut k d l ∈ vitems m -> IInit d sz v ∈ vitems m ->
     Forall (fun o => rho o = N.testbit v (select (map rho (take k l)))) (drop k l)).
(* values of the outputs in order of declaration when input number k has value env k *)
Definition mod_computes (m : vmod) (env : nat -> bool) (l : list bool) : Prop :=
  exists rho, consistent m rho /\ (forall k d, d_in m !! k = Some d -> rho d = env k) /\ l = map rho (d_out m).
