(** The instruction set, buzzvm.h 54-112. *)
From Verif Require Import Base.

(** enum buzzvm_instr: opcodes without argument, then with a float argument, then with an
    integer argument. *)
Inductive opcode :=
| I_NOP | I_DONE | I_PUSHNIL | I_DUP | I_POP | I_RET0 | I_RET1 | I_ADD | I_SUB | I_MUL | I_DIV | I_MOD | I_POW
| I_UNM | I_LAND | I_LOR | I_LNOT | I_BAND | I_BOR | I_BNOT | I_LSHIFT | I_RSHIFT | I_EQ | I_NEQ | I_GT | I_GTE
| I_LT | I_LTE | I_GLOAD | I_GSTORE | I_PUSHT | I_TPUT | I_TGET | I_CALLC | I_CALLS
| I_PUSHF | I_PUSHI | I_PUSHS | I_PUSHCN | I_PUSHCC | I_PUSHL | I_LLOAD | I_LSTORE | I_LREMOVE
| I_JUMP | I_JUMPZ | I_JUMPNZ.

(** In the order of the enum. *)
Definition opcodes : list opcode :=
  [I_NOP; I_DONE; I_PUSHNIL; I_DUP; I_POP; I_RET0; I_RET1; I_ADD; I_SUB; I_MUL; I_DIV; I_MOD; I_POW;
   I_UNM; I_LAND; I_LOR; I_LNOT; I_BAND; I_BOR; I_BNOT; I_LSHIFT; I_RSHIFT; I_EQ; I_NEQ; I_GT; I_GTE;
   I_LT; I_LTE; I_GLOAD; I_GSTORE; I_PUSHT; I_TPUT; I_TGET; I_CALLC; I_CALLS;
   I_PUSHF; I_PUSHI; I_PUSHS; I_PUSHCN; I_PUSHCC; I_PUSHL; I_LLOAD; I_LSTORE; I_LREMOVE;
   I_JUMP; I_JUMPZ; I_JUMPNZ].
(** The opcode with a number; none for 47..255. *)
Definition opcode_of (b : Z) : option opcode := nth_error opcodes (Z.to_nat b).
(** The number of an opcode (Gallina numbers constructors by enumeration). *)
Definition opnum (o : opcode) : Z :=
  match o with
  | I_NOP => 0 | I_DONE => 1 | I_PUSHNIL => 2 | I_DUP => 3 | I_POP => 4 | I_RET0 => 5 | I_RET1 => 6 | I_ADD => 7
  | I_SUB => 8 | I_MUL => 9 | I_DIV => 10 | I_MOD => 11 | I_POW => 12 | I_UNM => 13 | I_LAND => 14 | I_LOR => 15
  | I_LNOT => 16 | I_BAND => 17 | I_BOR => 18 | I_BNOT => 19 | I_LSHIFT => 20 | I_RSHIFT => 21 | I_EQ => 22
  | I_NEQ => 23 | I_GT => 24 | I_GTE => 25 | I_LT => 26 | I_LTE => 27 | I_GLOAD => 28 | I_GSTORE => 29
  | I_PUSHT => 30 | I_TPUT => 31 | I_TGET => 32 | I_CALLC => 33 | I_CALLS => 34 | I_PUSHF => 35 | I_PUSHI => 36
  | I_PUSHS => 37 | I_PUSHCN => 38 | I_PUSHCC => 39 | I_PUSHL => 40 | I_LLOAD => 41 | I_LSTORE => 42
  | I_LREMOVE => 43 | I_JUMP => 44 | I_JUMPZ => 45 | I_JUMPNZ => 46
  end.
(** Opcodes followed by four bytes of argument. *)
Definition has_arg (o : opcode) : bool := 35 <=? opnum o.
(** Little-endian 32-bit words (the byte order of the usual targets; the code reads and writes
    arguments in the byte order of the machine). *)
Definition le32 (w : Z) : list Z := [w mod 256; w / 256 mod 256; w / 65536 mod 256; w / 16777216 mod 256].
