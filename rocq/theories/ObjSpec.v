(** Specification vocabulary for objects: numeric value of floats, lexicographic order, and
    the classes of table keys for which tables behave as finite maps. *)
From Verif Require Import Base Float Strman Obj.

(** Numeric value of a float in units of 2^-149 (every finite binary32 number is an integral
    multiple of it); the infinities are put beyond every finite number. *)
Definition fval (f : f32) : Z :=
  match f with
  | S754_finite s m e => let v := Zpos m * 2 ^ (e + 149) in if s then - v else v
  | S754_infinity s => if s then - 2 ^ 300 else 2 ^ 300
  | _ => 0
  end.
Definition is_nan (f : f32) : bool := match f with S754_nan => true | _ => false end.

(** Lexicographic order of byte strings. *)
Fixpoint lex_lt (s t : str) : Prop :=
  match s, t with
  | _, [] => False
  | [], _ :: _ => True
  | x :: s', y :: t' => x < y \/ (x = y /\ lex_lt s' t')
  end.

(** A string that starts like a printed number. *)
Definition numlike (s : str) : bool :=
  match s with c :: _ => ((48 <=? c) && (c <=? 57)) || (c =? 45) | [] => false end.

(** Table keys that do not interfere.  [sidof] is the assignment of ids to strings by the
    string manager of the robot.  Without floats: all integers, and strings that do not look
    like a number.  With floats ([fl = true]): floats that are above -1 and below 2^32 (others
    are undefined as keys), and integers below 2^24 in absolute value. *)
Definition key_class (fl : bool) (sidof : str -> Z) (k : obj) : bool :=
  match k with
  | OInt z => if fl then Z.abs z <? 2 ^ 24 else int32_rangeb z
  | OFloat f => fl && valid_f32 f && match f_to_uint32 f with Ok _ => true | _ => false end
  | OStr sid s => (sid =? sidof s) && (0 <=? sid) && (sid <? 65536) && negb (numlike s)
  | _ => false
  end.

(** When two keys of the class denote the same slot of a table: equal numbers or equal strings. *)
Definition same_key (a b : obj) : bool :=
  match a, b with
  | OInt x, OInt y => x =? y
  | OInt x, OFloat g => x * 2 ^ 149 =? fval g
  | OFloat f, OInt y => fval f =? y * 2 ^ 149
  | OFloat f, OFloat g => fval f =? fval g
  | OStr _ s, OStr _ t => if list_eq_dec Z.eq_dec s t then true else false
  | _, _ => false
  end.

(** All keys of a table are in a class. *)
Definition tab_keys {V} (P : obj -> bool) (t : PDict.pdict obj V) : Prop :=
  Forall (fun e => P (fst e) = true) (PDict.pentries t).

(** The same for the keys of virtual stigmergies, whose hash is different: floats must be
    convertible to a 32-bit signed integer. *)
Definition vkey_class (fl : bool) (sidof : str -> Z) (k : obj) : bool :=
  key_class fl sidof k && match k with OFloat f => match f_to_int32 f with Ok _ => true | _ => false end | _ => true end.
