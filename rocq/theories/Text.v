(** The C library functions on text used by the assembler, the compiler and the debugger,
    as described by the C standard (7.4, 7.22.1, 7.24) and the strsep/getline manual pages.
    A text is a list of bytes; a C string is such a list without 0. *)
From Coq Require Import String Ascii.
From Verif Require Import Base.

(** Bytes of a literal. *)
Fixpoint bs (s : string) : list Z :=
  match s with
  | EmptyString => []
  | String c t => Z.of_N (N_of_ascii c) :: bs t
  end.

Definition TAB : Z := 9.
Definition NL : Z := 10.
Definition SP : Z := 32.
Definition COMMA : Z := 44.
Definition BAR : Z := 124.

(** isspace() in the C locale. *)
Definition isspace (c : Z) : bool := (c =? 32) || ((9 <=? c) && (c <=? 13)).
Definition isdigit (c : Z) : bool := (48 <=? c) && (c <=? 57).

Fixpoint drop_while (f : Z -> bool) (s : list Z) : list Z :=
  match s with
  | [] => []
  | c :: t => if f c then drop_while f t else s
  end.
Fixpoint take_while (f : Z -> bool) (s : list Z) : list Z :=
  match s with
  | [] => []
  | c :: t => if f c then c :: take_while f t else []
  end.
(** The C string at the start of a buffer. *)
Definition cstr (s : list Z) : list Z := take_while (fun c => negb (c =? 0)) s.

(** getline(): the bytes up to and including the next newline, and the rest. *)
Fixpoint getline (s : list Z) : list Z * list Z :=
  match s with
  | [] => ([], [])
  | c :: t => if c =? NL then ([c], t) else let '(l, r) := getline t in (c :: l, r)
  end.
(** All lines of a file. *)
Fixpoint lines_fuel (fuel : nat) (s : list Z) : list (list Z) :=
  match fuel, s with
  | S f, _ :: _ => let '(l, r) := getline s in l :: lines_fuel f r
  | _, _ => []
  end.
Definition lines (s : list Z) : list (list Z) := lines_fuel (length s) s.

(** strsep(): the field up to the next delimiter; a NULL string stays NULL. *)
Fixpoint sep1 (delim : list Z) (s : list Z) : list Z * option (list Z) :=
  match s with
  | [] => ([], None)
  | c :: t => if existsb (Z.eqb c) delim then ([], Some t)
              else let '(l, r) := sep1 delim t in (c :: l, r)
  end.
Definition strsep (delim : list Z) (s : option (list Z)) : option (list Z) * option (list Z) :=
  match s with
  | None => (None, None)
  | Some t => let '(l, r) := sep1 delim t in (Some l, r)
  end.

(** strtol() and strtoul() in base 10: blanks, an optional sign, digits.  [None]: there is no digit
    (the result is 0 and endptr is the start of the string). *)
Definition digits_value (s : list Z) : Z := fold_left (fun v c => 10 * v + (c - 48)) s 0.
Definition parse_number (s : list Z) : option (bool * Z) :=
  let t := drop_while isspace s in
  let '(neg, u) := match t with
                   | c :: r => if c =? 45 then (true, r) else if c =? 43 then (false, r) else (false, t)
                   | [] => (false, t)
                   end in
  match take_while isdigit u with
  | [] => None
  | d => Some (neg, digits_value d)
  end.
Definition strtol (s : list Z) : Z :=
  match parse_number s with
  | None => 0
  | Some (neg, v) => if neg then Z.max (- 2 ^ 63) (- v) else Z.min (2 ^ 63 - 1) v
  end.
Definition strtoul (s : list Z) : option Z :=
  match parse_number s with
  | None => None
  | Some (neg, v) => if 2 ^ 64 <=? v then Some (2 ^ 64 - 1) else Some (if neg then wrap64 (- v) else v)
  end.

(** printf of a number in decimal; numbers of the code have at most 64 bits, hence at most 20
    digits. *)
Fixpoint digits (fuel : nat) (n : Z) : list Z :=
  match fuel with
  | O => []
  | S f => (if n <? 10 then [] else digits f (n / 10)) ++ [48 + n mod 10]
  end.
Definition print_u (n : Z) : list Z := digits 20 n.
Definition print_d (n : Z) : list Z := if n <? 0 then 45 :: print_u (- n) else print_u n.
