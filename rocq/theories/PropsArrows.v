(** C112: arrows.bzz, sequences of functions. *)
From Coq Require Import String.
From Verif Require Import Base Float Dict PDict Strlib Parser Strman Obj Instr Vm VmSpec VmProofs Text Lex Asm Load WireProofs PropsHost PropsLibrary PropsCompile PropsScript Front Register PropsStringBzz ArrowsBzz.
Local Open Scope Z_scope. Local Open Scope list_scope.

Ltac Zify.zify_post_hook ::= idtac.

(** ** From a script that includes arrows.bzz to the end of its execution *)

(** The files bzzparse finds: the script, and the text of arrows.bzz. *)
Definition arrows_files (text lib name : list Z) : option (list Z * list Z) :=
  if list_eq_dec Z.eq_dec name (bs "main.bzz") then Some (bs "/main.bzz", text)
  else if list_eq_dec Z.eq_dec name (bs "arrows.bzz") then Some (bs "/arrows.bzz", lib) else None.

(** The value of a global variable. *)
Definition global_of (v : vm unit) (name : list Z) : option obj :=
  match s2i_get (str2id (v_str v)) name with Some i => gsym_get (v_gsyms v) i | None => None end.

(** The script is compiled, assembled and loaded without an error, runs to its end, and leaves the
    value in the global variable. *)
Definition arrows_leave (lib text name : list Z) (o : obj) : Prop :=
  exists asm code lines v0 st v,
    bzzparse (arrows_files text lib) 9000 [] (bs "main.bzz") = Ok (Some asm) /\
    buzz_asm no_strtof_ asm = Ok (0, code, lines) /\
    load_all demo_fid demo_flist no_powf code 12 200 (vm_new tt) = Ok (v0, st) /\
    execute_script demo_flist no_powf (byte code) (zlen code) 20000 v0 = Ok v /\
    v_state v = S_DONE /\ v_error v = E_NONE /\ global_of v name = Some o.

(** Three functions that append a digit to [r], and then the rest of the script. *)
Definition three (rest : string) : list Z := bs "include 'arrows.bzz'
r = 0
function f() { r = r * 10 + 1 }
function g() { r = r * 10 + 2 }
function h() { r = r * 10 + 3 }
" ++ bs rest.

(** The usage the file documents. *)
Definition documented : list Z := three "seq = arrows.begin(f).next(g).next(h)
arrows.run(seq)
".
(** The same, from the first arrow. *)
Definition from_first : list Z := three "seq = arrows.begin(f)
last = seq.next(g).next(h)
arrows.run(seq)
".

(** arrows.bzz with the parameter of next under another name. *)
Definition arrows_renamed : list Z := bs "
arrows = {}
arrows.wrap = function(f) {
  return {
    .f = f,
    .next = function(k) {
      self.n = arrows.wrap(k)
      return self.n
    }
  }
}
arrows.begin = arrows.wrap
arrows.run = function(a) {
  var cur = a
  cur.f()
  cur = cur.n
  while(cur) {
    cur.f()
    cur = cur.n
  }
}
".

Ltac leave := do 6 eexists; split; [vm_compute; reflexivity|]; split; [vm_compute; reflexivity|];
  split; [vm_compute; reflexivity|]; split; [vm_compute; reflexivity|]; repeat split; vm_compute; reflexivity.

(** The sequence f, g, h of the documentation runs f only, not f, g and h (which would leave 123). *)
Theorem C112_documented_refuted : arrows_leave arrows_text documented (bs "r") (OInt 1).
Proof. leave. Qed.
Print Assumptions C112_documented_refuted.

(** Run from its first arrow, f runs three times: next puts the function of the arrow before it, not
    the function it is given, into the new arrow (the parameter has the name of a parameter of the
    function around it, C91). *)
Theorem C112_next_refuted : arrows_leave arrows_text from_first (bs "r") (OInt 111).
Proof. leave. Qed.
Print Assumptions C112_next_refuted.

(** With another name for the parameter: f, g, h from the first arrow; but the documented usage runs
    only h, as next returns the new arrow. *)
Example C112_case :
  arrows_leave arrows_renamed from_first (bs "r") (OInt 123) /\ arrows_leave arrows_renamed documented (bs "r") (OInt 3).
Proof. split; leave. Qed.
