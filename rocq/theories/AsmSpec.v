(** Specification vocabulary for the assembler: programs as lists of lines, their text, and the bytes they
    stand for. *)
From Verif Require Import Base Dict Strman Instr Text Asm.

Inductive operand :=
| P_none
| P_int (z : Z)                (* a number *)
| P_label (name : str)         (* the address of a label *)
| P_float (text : str)         (* a number in the syntax of strtof *)
| P_num (text : str).          (* a number in the syntax of strtoul *)
Definition position : Type := Z * Z * str.   (* line, column and file of the script *)
Inductive aline :=
| L_count (n : Z)              (* number of strings *)
| L_string (s : str)
| L_label (name : str) (d : option position)
| L_instr (o : opcode) (a : operand) (d : option position)
| L_blank.

(** ** Text: one line each, instructions indented by a tab, debug information after a bar *)
Definition dbg_text (d : option position) : list Z :=
  match d with
  | None => []
  | Some (l, c, f) => [TAB; BAR] ++ print_u l ++ [COMMA] ++ print_u c ++ [COMMA] ++ f
  end.
Definition arg_txt (a : operand) : list Z :=
  match a with
  | P_none => []
  | P_int z => SP :: print_d z
  | P_label n => SP :: n
  | P_float t => SP :: t
  | P_num t => SP :: t
  end.
Definition line_text (l : aline) : list Z :=
  match l with
  | L_count n => 33 :: print_u n ++ [NL]
  | L_string s => 39 :: s ++ [NL]
  | L_label n d => n ++ dbg_text d ++ [NL]
  | L_instr o a d => TAB :: opname o ++ arg_txt a ++ dbg_text d ++ [NL]
  | L_blank => [NL]
  end.
Definition text (p : list aline) : list Z := concat (map line_text p).

(** ** Bytes *)
Section Encode.
Variable strtof : list Z -> option Z.

Definition line_size (l : aline) : Z :=
  match l with
  | L_count _ => 2
  | L_string s => zlen s + 1
  | L_instr o _ _ => if has_arg o then 5 else 1
  | L_label _ _ | L_blank => 0
  end.
(** The offset of what follows [p]. *)
Fixpoint address (p : list aline) : Z :=
  match p with
  | [] => 0
  | l :: t => line_size l + address t
  end.
(** Value of an operand, [env] giving the addresses of labels. *)
Definition operand_value (env : str -> Z) (a : operand) : Z :=
  match a with
  | P_none => 0
  | P_int z => z
  | P_label n => env n
  | P_float t => match strtof t with Some w => w | None => 0 end
  | P_num t => match strtoul t with Some w => w | None => 0 end
  end.
(** 16 and 32-bit values are stored least significant byte first; strings end with a 0. *)
Definition line_bytes (env : str -> Z) (l : aline) : list Z :=
  match l with
  | L_count n => [n mod 256; n / 256]
  | L_string s => s ++ [0]
  | L_instr o a _ => opnum o :: (if has_arg o then le32 (operand_value env a) else [])
  | L_label _ _ | L_blank => []
  end.
Definition code_bytes (env : str -> Z) (p : list aline) : list Z := concat (map (line_bytes env) p).

(** Label [name] stands in [p] before what is at offset [a]. *)
Definition defined_at (p : list aline) (name : str) (a : Z) : Prop :=
  exists p1 d p2, p = p1 ++ L_label name d :: p2 /\ a = address p1.

(** The debug information of the program: offset, line, column, file. *)
Fixpoint debug_records (a : Z) (p : list aline) : list (Z * Z * Z * str) :=
  match p with
  | [] => []
  | l :: t =>
      match l with
      | L_label _ (Some (li, c, f)) | L_instr _ _ (Some (li, c, f)) => [(a, li, c, f)]
      | _ => []
      end ++ debug_records (a + line_size l) t
  end.

(** ** Programs the text of which is not ambiguous *)
(** Text without blanks, bars and terminators. *)
Definition word (s : str) : Prop := s <> [] /\ Forall (fun c => isspace c = false /\ c <> BAR /\ c <> 0) s.
Definition label_name (s : str) : Prop := exists t, s = 64 :: t /\ word s.
Definition dbg_ok (d : option position) : Prop :=
  match d with
  | None => True
  | Some (l, c, f) =>
      0 <= l < 2 ^ 63 /\ 0 <= c < 2 ^ 63 /\
      Forall (fun x => x <> COMMA /\ x <> NL /\ x <> BAR /\ x <> 0) f /\ (forall g x, f = g ++ [x] -> isspace x = false)
  end.
Definition line_ok (l : aline) : Prop :=
  match l with
  | L_count n => 0 <= n < 2 ^ 16
  | L_string s => Forall (fun c => c <> NL /\ c <> 0) s
  | L_label n d => label_name n /\ dbg_ok d
  | L_instr o a d =>
      dbg_ok d /\
      match arg_kind o, a with
      | A_none, P_none => True
      | A_float, P_float t => word t /\ exists w, strtof t = Some w
      | A_float, P_label n => label_name n /\ strtof n = None
      | A_int, P_int z => int32_range z
      | A_int, P_num t => word t /\ exists w, strtoul t = Some w
      | A_int, P_label n | A_label, P_label n => label_name n
      | _, _ => False
      end
  | L_blank => True
  end.
Definition lines_ok (p : list aline) : Prop := Forall line_ok p.
(** Every label used is defined, before the end of the code; no label is defined twice. *)
Definition uses (p : list aline) (name : str) : Prop :=
  exists o d, In (L_instr o (P_label name) d) p.
Definition labels_ok (p : list aline) : Prop :=
  (forall name, uses p name -> exists a, defined_at p name a /\ a < address p) /\
  (forall name a b, defined_at p name a -> defined_at p name b -> a = b).
End Encode.

(** ** What the disassembler prints *)
Section Listing.
Variable strtof : list Z -> option Z.
Variable fmt_f : Z -> list Z.
(** An operand as text: %f for pushf, the signed number for the others. *)
Definition operand_text (env : str -> Z) (o : opcode) (a : operand) : list Z :=
  if has_arg o then
    SP :: (if opnum o =? opnum I_PUSHF then fmt_f (wrap32 (operand_value strtof env a))
           else print_d (sign32 (operand_value strtof env a)))
  else [].
(** One line per instruction, starting with its offset. *)
Fixpoint listing (env : str -> Z) (dbg : Z -> option position) (a : Z) (p : list aline) : list Z :=
  match p with
  | [] => []
  | l :: t =>
      match l with
      | L_instr o x _ => print_u a ++ [58; TAB] ++ opname o ++ operand_text env o x ++ dbg_text (dbg a) ++ [NL]
      | _ => []
      end ++ listing env dbg (a + line_size l) t
  end.
Definition is_code (l : aline) : Prop := match l with L_count _ | L_string _ => False | _ => True end.
End Listing.

(** A program as the compiler writes it: the strings, then the code. *)
Definition program (strs : list str) (body : list aline) : list aline :=
  L_count (zlen strs) :: map L_string strs ++ body.
