(* Model of the choice flow: include/flow/flow_manager.hpp:77-118, 157-234, 263-284
   (run, dch_compress, dch_compress2, choice_synthesis, mapper) and of
   include/operations/algorithms/debugger.hpp:78-96 (debug_by_miter).

   A copy of an aig_network shares the storage of the original, and rewriting works
   in place on the network it is given.  The members _original_aig and
   _compress_aig therefore change when the first rewriting of dch_compress and of
   dch_compress2 runs on the local copy caig; a call of a pass is modelled with what
   it leaves in the storage of its argument.  Reading and writing files, the
   configuration and the reports are left out; choice_synthesis_abc, which reads the
   other networks from files, is not modelled. *)
From Verif Require Import Base Aig AigSem Topo Clean Tt TtCache Cut CutEnum Cnf Sim Subst RefDeref Rewrite NodeRewriting RewriteSelect Balance
  Choice ChoiceSat ChoiceCompute ChoiceClasses ChoiceMiter Klut KlutSem Mapping KlutMapping.

Inductive pass := PRewrite (ps : rw_ps) | PBalance.
(* a pass, the network it was called with, what that network was changed to, and
   the network it returned *)
Record call := Call { c_pass : pass; c_before : aig; c_stored : aig; c_after : aig }.
(* everything rewriting and balancing are parameterized with *)
Record pass_env (D : Type) := PassEnv {
  pe_lt : cut D -> cut D -> bool; pe_upd : list (cutset D) -> nat -> cut D -> D; pe_d0 : D; pe_cap : nat; pe_max : nat;
  pe_cps : cut_ps; pe_db : aig * NodeRewriting.classes; pe_srt : list (nat * signal) -> list (nat * signal); pe_nb : nat
}.
Arguments pe_lt {D}. Arguments pe_upd {D}. Arguments pe_d0 {D}. Arguments pe_cap {D}. Arguments pe_max {D}.
Arguments pe_cps {D}. Arguments pe_db {D}. Arguments pe_srt {D}. Arguments pe_nb {D}.

Section flow.
Context {D : Type} (E : pass_env D).

(* rewrite.hpp:75-148: the selection adds gates to the network, the replacements
   redirect its fanins and outputs, and the result is a cleaned-up copy *)
Definition select_in (ps : rw_ps) (s : aig) : option state :=
  select_all (pe_lt E) (pe_upd E) (pe_d0 E) (pe_cap E) (pe_max E) (pe_cps E) (pe_db E) ps s.
Definition rewrite_in (ps : rw_ps) (s : aig) : option (aig * aig) :=
  '(s', v, _, l) ← select_in ps s;
  '(_, (t, _)) ← replace_all (recorded_fanouts s) l (s', v);
  r ← cleanup_dangling (pe_nb E) t false false;
  Some (t, r).
(* balancing takes a constant reference and builds a new network *)
Definition run_pass (p : pass) (s : aig) : option (aig * aig) :=
  match p with
  | PRewrite ps => rewrite_in ps s
  | PBalance => r ← balance_and (pe_srt E) (pe_nb E) s; Some (s, r)
  end.
Fixpoint run_script (l : list pass) (s : aig) : option (list call) :=
  match l with
  | [] => Some []
  | p :: l' => '(t, r) ← run_pass p s; cs ← run_script l' r; Some (Call p s t r :: cs)
  end.
(* the network a script returns, and what the network it was given has become *)
Definition script_result (s : aig) (cs : list call) : aig := match last cs with Some c => c_after c | None => s end.
Definition script_stored (s : aig) (cs : list call) : aig := match cs with c :: _ => c_stored c | [] => s end.

(* flow_manager.hpp:161-177 *)
Definition dch_compress : list pass := [PRewrite (RwPs false true); PBalance; PRewrite (RwPs true true)].
(* flow_manager.hpp:183-211 *)
Definition dch_compress2 : list pass :=
  [PRewrite (RwPs false false); PBalance; PRewrite (RwPs false true); PRewrite (RwPs true true); PBalance; PRewrite (RwPs true true); PBalance].

Record synth := Synth { y_calls1 : list call; y_calls2 : list call; y_original : aig; y_compress : aig; y_compress2 : aig; y_merged : aig; y_choice : cnet }.
(* flow_manager.hpp:217-233 choice_synthesis.  The three networks have storages of
   their own: each script ends with a new network. *)
Definition choice_synthesis (rnd : nat -> N) (both : bool) (cps : sparams) (solve : oracle) (nw : nat) (o : aig) : option synth :=
  cs1 ← run_script dch_compress o;
  let c := script_result o cs1 in
  cs2 ← run_script dch_compress2 c;
  let c2 := script_result c cs2 in
  m ← merge [c2; script_stored c cs2; script_stored o cs1] [Entry 0 0; Entry 1 1; Entry 2 2] (aig_init_n (pe_nb E));
  w ← ccompute_choice rnd both cps solve m nw (pe_nb E);
  Some (Synth cs1 cs2 (script_stored o cs1) (script_stored c cs2) c2 m w).
(* flow_manager.hpp:281-283 mapper: the optional is dereferenced unchecked *)
Definition mapper (A : fops) (cap max : nat) stale (p : kparams) (y : synth) : option klut :=
  m ← klut_mapping A (y_choice y) cap max stale p;
  k ← choice_to_klut (cb (y_choice y)) m;
  k.

(* debugger.hpp:78-96; a missing verdict is dereferenced *)
Definition debug_by_miter (solve : solver) (s1 s2 : aig) : option bool :=
  m ← miter (pe_nb E) s1 s2;
  match m with
  | None => Some false
  | Some d => '(r, _) ← equivalence_checking solve d; r
  end.
(* flow_manager.hpp:103-116: the "formal verification" of run *)
Definition flow_check (solve : solver) (y : synth) (k : klut) : option bool :=
  a ← convert_klut_to_aig (pe_nb E) k;
  debug_by_miter solve a (y_original y).
End flow.

(* ---- specification ---- *)
Definition same_functions (s t : aig) : Prop := forall env l, computes s env l <-> computes t env l.
(* a call that kept the functions *)
Definition keeps (c : call) : Prop := same_functions (c_before c) (c_after c).
(* The replacements a call of rewriting chooses do not get in each other's way
   (Rewrite.v). *)
Definition harmless_call {D} (E : pass_env D) (ps : rw_ps) (s : aig) : Prop := forall s' v a l,
  select_in E ps s = Some (s', v, a, l) -> (N.of_nat (size s') < 2 ^ 30)%N /\ harmless (recorded_fanouts s) l s'.
