(** The part of the standard library written in Buzz, src/include/string.bzz, and the words its properties are stated in.
    The text of the file is here as it is in /repo; its abstract syntax is computed from it by the reader of Front.v. *)
From Coq Require Import String.
From Verif Require Import Base Float Dict PDict Strman StrmanSpec Obj ObjSpec Instr Vm Text Lex LexSpec Asm AsmSpec Source CompileSpec GcSpec HostSpec NeighborsVmSpec Front.
Local Open Scope Z_scope.
Local Open Scope list_scope.

(** src/include/string.bzz 1-94. *)
Definition string_bzz_text : str := bs "#
# Returns the string character at the given position.
# PARAM s: The string
# PARAM n: The position of the wanted character
# RETURN The character at the wanted position, or nil
#
string.charat = function(s, n) {
  return string.sub(s, n, n+1)
}

#
# Returns the index of the first occurrence of the given string m
# within another string s. If none is found, this function returns
# nil.
# PARAM s: The string
# PARAM m: The string to match
# RETURN: The position of the first match, or nil
#
string.indexoffirst = function(s, m) {
  var ls = string.length(s)
  var lm = string.length(m)
  var i = 0
  while(i < ls-lm+1) {
    if(string.sub(s, i, i+lm) == m) return i
    i = i + 1
  }
  return nil
}

#
# Returns the index of the last occurrence of the given string m
# within another string s. If none is found, this function returns
# nil.
# PARAM s: The string
# PARAM m: The string to match
# RETURN: The position of the last match, or nil
#
string.indexoflast = function(s, m) {
  var ls = string.length(s)
  var lm = string.length(m)
  var i = ls - lm + 1
  while(i >= 0) {
    if(string.sub(s, i, i+lm) == m) return i
    i = i - 1
  }
  return nil
}

#
# Splits a string s using the delimiters in d. The string list is
# returned in a table indexed by value (starting at 0).
# PARAM s: The string
# PARAM d: A string containing the delimiters
# RETURN: A table containing the tokens
#
string.split = function(s, d) {
  var i1 = 0  # index to move along s (token start)
  var i2 = 0  # index to move along s (token end)
  var c = 0   # token count
  var t = {}  # token list
  var ls = string.length(s)
  var ld = string.length(d)
  # Go through string s
  while(i2 < ls) {
    # Try every delimiter
    var j = 0   # index to move along d
    var f = nil # whether the delimiter was found or not
    while(j < ld and (not f)) {
      if(string.charat(s, i2) == string.charat(d, j)) {
        # Delimiter found
        f = 1
        # Is it worth adding a new token?
        if(i2 > i1) {
          t[c] = string.sub(s, i1, i2)
          c = c + 1
        }
        # Start new token
        i1 = i2 + 1
      }
      else {
        # Next delimiter
        j = j + 1
      }
    }
    # Next string character
    i2 = i2 + 1
  }
  # Is it worth adding a new token?
  if(i2 > i1) {
    t[c] = string.sub(s, i1, i2)
  }
  # Return token list
  return t;
}
"%string.
Definition string_bzz_file (name : str) : option (str * str) := Some (bs "/string.bzz", string_bzz_text).
Definition got_script (o : option stats) : stats := match o with Some l => l | None => Ss_nil end.
Definition string_bzz : stats := Eval vm_compute in got_script (script_of (fun _ => None) string_bzz_file 3000 []).

(** The function that statements give to a member of a table: parameters and statements. *)
Fixpoint member_fun (x n : string) (l : stats) : list str * stats :=
  match l with
  | Ss_nil => ([], Ss_nil)
  | Ss_cons (S_put (E_var y) (E_str k) (E_fun _ ps b)) r => if same y (bs x) && same k (bs n) then (ps, b) else member_fun x n r
  | Ss_cons _ r => member_fun x n r
  end.
Definition charat_fun := Eval vm_compute in member_fun "string" "charat" string_bzz.
Definition indexoffirst_fun := Eval vm_compute in member_fun "string" "indexoffirst" string_bzz.
Definition indexoflast_fun := Eval vm_compute in member_fun "string" "indexoflast" string_bzz.
Definition split_fun := Eval vm_compute in member_fun "string" "split" string_bzz.

(** Statements that put functions into a table, in front of other statements. *)
Fixpoint puts (x : string) (l : list (string * Z * (list str * stats))) (r : stats) : stats :=
  match l with [] => r | (n, i, f) :: l => Ss_cons (S_put (E_var (bs x)) (E_str (bs n)) (E_fun i (fst f) (snd f))) (puts x l r) end.
(** The statements of string.bzz, in front of others; [i1], ..., [i4] name the functions. *)
Definition string_bzz_with (i1 i2 i3 i4 : Z) (r : stats) : stats :=
  puts "string" [("charat"%string, i1, charat_fun); ("indexoffirst"%string, i2, indexoffirst_fun); ("indexoflast"%string, i3, indexoflast_fun); ("split"%string, i4, split_fun)] r.

Section Words.
Context {X : Type}.
Notation sst := (sst X).
Variable sid : str -> Z.
Variable ref : Z -> Z.
Variable fns : list func.
Variable cfun : Z -> list obj -> sst -> out (obj * sst).
(** The value of the member [n] of the table in the global variable [x]. *)
Definition member (st : sst) (x n : string) (o : obj) : Prop :=
  exists a, s_glob st (bs x) = OTab a /\ get_val st (OTab a) (OStr (sid (bs n)) (bs n)) = Done o.
(** A value that is a C function, and what the function does. *)
Definition c_value (o : obj) (m : list obj -> sst -> out (obj * sst)) : Prop :=
  exists i self, o = OClos false i [self] /\ forall args st, cfun i (self :: args) st = m args st.
(** A value that is a function of the script, with these parameters and statements. *)
Definition fun_value (o : obj) (f : list str * stats) : Prop :=
  exists r self fn, o = OClos true r [self] /\ find (fun fn => ref (fn_id fn) =? r) fns = Some fn /\ fn_vars fn = bs "self" :: fst f /\ fn_body fn = snd f.
(** The table string after string.bzz was included. *)
Record string_lib (st : sst) : Prop := {
  sl_length : exists o, member st "string" "length" o /\ c_value o (fun args => string_cfun 0 (ONil :: args));
  sl_sub : exists o, member st "string" "sub" o /\ c_value o (fun args => string_cfun 1 (ONil :: args));
  sl_charat : exists o, member st "string" "charat" o /\ fun_value o charat_fun;
  sl_first : exists o, member st "string" "indexoffirst" o /\ fun_value o indexoffirst_fun;
  sl_last : exists o, member st "string" "indexoflast" o /\ fun_value o indexoflast_fun;
  sl_split : exists o, member st "string" "split" o /\ fun_value o split_fun
}.
(** A call gives a value and a state. *)
Definition returns strtof powf (f : obj) (args : list obj) (st : sst) (r : obj) (st' : sst) : Prop :=
  exists n0, forall n, (n0 <= n)%nat -> call (at_most strtof powf sid ref fns cfun n) f args st = Done (r, st').
(** There is room for [n] more strings. *)
Definition room (st : sst) (n : Z) : Prop := strings_ok (s_str st) /\ sm_live (s_str st) + n < 65534.
(** Nothing changed from [st] to [st'] but new strings, at most [n]. *)
Definition new_strings (n : Z) (st st' : sst) : Prop :=
  s_glob st' = s_glob st /\ s_heap st' = s_heap st /\ s_ext st' = s_ext st /\ keeps_strings (s_str st) (s_str st') /\
  strings_ok (s_str st') /\ sm_live (s_str st') <= sm_live (s_str st) + n.
End Words.

(** The string has a number. *)
Definition registered (sm : strman) (t : str) : Prop := exists i, 0 <= i < 65536 /\ sm_get sm i = Some t.
(** There is room for the strings [l]: those without a number are among [new], and there are numbers left for them. *)
Definition rooms (l : list str) (sm : strman) : Prop :=
  strings_ok sm /\ exists new, (forall t, In t l -> In t new \/ registered sm t) /\ sm_live sm + zlen new < 65534.

(** The pieces of [s] between characters of [d], without the empty ones; [w] is the beginning of the first one. *)
Fixpoint pieces_between (d w s : str) : list str :=
  let piece := match w with [] => [] | _ => [w] end in
  match s with
  | [] => piece
  | c :: r => if existsb (Z.eqb c) d then piece ++ pieces_between d [] r else pieces_between d (w ++ [c]) r
  end.
(** The table has the elements of [l] under 0, 1, ..., and no other entry. *)
Definition list_table (t : table) (l : list obj) : Prop :=
  zlen (pentries t) = zlen l /\ forall k, 0 <= k < zlen l -> tab_get t (OInt k) = Ok (nth_error l (Z.to_nat k)).
(** [o] is the string [t], registered. *)
Definition is_string (sm : strman) (t : str) (o : obj) : Prop := exists id, 0 <= id < 65536 /\ sm_get sm id = Some t /\ o = OStr id t.
(** [m] is in [s] at position [i]. *)
Definition occurs_at (m s : str) (i : Z) : Prop := exists a b, s = a ++ m ++ b /\ zlen a = i.
