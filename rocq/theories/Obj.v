(** Model of the scalar part of src/buzz/buzztype.c: objects, comparison, hashing, and the
    dictionaries used as Buzz tables.

    Buzz objects other than tables are never modified after their creation (the only writes
    to the fields of an object follow its allocation), so an object is modelled by its value;
    a table is modelled by its address ([OTab a]), its contents being kept by the layer
    that uses it. *)
From Verif Require Import Base Float Dict PDict Strman.

(** union buzzobj_u, buzztype.h 37-121.  [OStr sid s]: the id and the characters;
    [OClos native ref actrec]; [OUser p]: an opaque pointer. *)
Inductive obj :=
| ONil
| OInt (z : Z)
| OFloat (f : f32)
| OStr (sid : Z) (s : str)
| OTab (a : Z)
| OClos (native : bool) (ref : Z) (actrec : list obj)
| OUser (p : Z).

(** The type tags, buzztype.h 17-23. *)
Definition T_NIL := 0. Definition T_INT := 1. Definition T_FLOAT := 2. Definition T_STRING := 3.
Definition T_TABLE := 4. Definition T_CLOSURE := 5. Definition T_USERDATA := 6.
Definition otype (o : obj) : Z :=
  match o with
  | ONil => T_NIL | OInt _ => T_INT | OFloat _ => T_FLOAT | OStr _ _ => T_STRING
  | OTab _ => T_TABLE | OClos _ _ _ => T_CLOSURE | OUser _ => T_USERDATA
  end.

(** ** sprintf("%d") and sprintf("%f") *)

(** Decimal digits of a non-negative number, most significant first. *)
Fixpoint digits_f (fuel : nat) (n : Z) (acc : str) : str :=
  match fuel with
  | O => acc
  | S f => let acc := (48 + n mod 10) :: acc in
           if n <? 10 then acc else digits_f f (n / 10) acc
  end.
(** Fuel: the number of binary digits, at least the number of decimal digits. *)
Definition digits (n : Z) : str := digits_f (S (Z.to_nat (Z.log2 n))) n [].
(** "%d". *)
Definition fmt_d (z : Z) : str := if z <? 0 then 45 :: digits (- z) else digits z.

(** Division rounding to nearest, ties to even (the rounding printf applies). *)
Definition div_rne (a b : Z) : Z :=
  let q := a / b in
  let r := 2 * (a mod b) in
  if r <? b then q else if r >? b then q + 1 else if Z.even q then q else q + 1.
(** "%f": six decimals, exact decimal expansion correctly rounded (as glibc and musl do). *)
Definition fmt_f_abs (m e : Z) : str :=
  let n := if 0 <=? e then m * 2 ^ e * 1000000 else div_rne (m * 1000000) (2 ^ (- e)) in
  digits (n / 1000000) ++ 46 ::
    map (fun k => 48 + n / 10 ^ k mod 10) [5; 4; 3; 2; 1; 0].
Definition sign_str (s : bool) (t : str) : str := if s then 45 :: t else t.
Definition fmt_f (f : f32) : str :=
  match f with
  | S754_zero s => sign_str s (fmt_f_abs 0 0)
  | S754_finite s m e => sign_str s (fmt_f_abs (Zpos m) e)
  | S754_infinity s => sign_str s [105; 110; 102]     (* "inf" *)
  | S754_nan => [110; 97; 110]                        (* "nan"; its sign is not modelled *)
  end.
(** sprintf into char str[30]: 29 characters and the terminator. *)
Definition sprintf30 (s : str) : res str := if zlen s <? 30 then Ok s else UB.

(** ** Comparison *)

(** if(a < b) return -1; if(a > b) return 1; return 0; on floats. *)
Definition float_cmp (a b : f32) : Z := if flt a b then -1 else if flt b a then 1 else 0.

(** What is taken from the C library and is not the same for all: powf, and strcmp, of whose result C gives only the sign. *)
Record libm := mkLibm { c_pow :> f32 -> f32 -> f32; c_strcmp : list Z -> list Z -> Z; c_strcmp_sign : forall a b, Z.sgn (c_strcmp a b) = strcmp a b }.

Section Cmp.
Variable strcmp : list Z -> list Z -> Z.
(** buzzobj_cmp, buzztype.c 136-217, with the strcmp of the C library. *)
Definition obj_cmp_by (a b : obj) : res Z :=
  match a, b with
  | ONil, ONil => Ok 0
  | ONil, _ | _, ONil => Ok 2
  | OInt x, OInt y => Ok (intkeycmp x y)
  | OInt x, OFloat y => Ok (float_cmp (f_of_Z x) y)
  | OFloat x, OInt y => Ok (float_cmp x (f_of_Z y))
  | OFloat x, OFloat y => Ok (float_cmp x y)
  | OStr _ s, OStr _ t => Ok (strcmp s t)
  | OStr _ s, OInt y => t <- sprintf30 (fmt_d y) ;; Ok (strcmp s t)
  | OStr _ s, OFloat y => t <- sprintf30 (fmt_f y) ;; Ok (strcmp s t)
  | OInt x, OStr _ t => s <- sprintf30 (fmt_d x) ;; Ok (strcmp s t)
  | OFloat x, OStr _ t => s <- sprintf30 (fmt_f x) ;; Ok (strcmp s t)
  | OTab p, OTab q => Ok (intkeycmp p q)
  | OTab _, _ => Ok 1
  | _, OTab _ => Ok (-1)
  | OUser p, OUser q => Ok (intkeycmp p q)
  | _, _ => Abort
  end.
End Cmp.
(** With a strcmp that gives -1, 0, 1: what the dictionaries see of buzzobj_cmp, for they only test if it is 0 (C111). *)
Definition obj_cmp : obj -> obj -> res Z := obj_cmp_by strcmp.

(** buzzobj_table_hash, buzztype.c 16-32. *)
Definition table_hash (k : obj) : res Z :=
  match k with
  | OInt z => Ok (wrap32 (Z.rem z 10))
  | OFloat f => u <- f_to_uint32 f ;; Ok (u mod 10)
  | OStr sid _ => Ok (wrap32 sid mod 10)
  | _ => Abort
  end.

(** buzzobj_hash, buzztype.c 78-105: the hash of keys of virtual stigmergies. *)
Definition obj_hash (k : obj) : res Z :=
  match k with
  | ONil => Ok 0
  | OInt z => Ok (uintkeyhash z)
  | OFloat f => z <- f_to_int32 f ;; Ok (uintkeyhash z)
  | OStr _ s => Ok (strkeyhash s)
  | OTab p => Ok (uintkeyhash (wrap32 p))
  | OUser p => Ok (uintkeyhash (wrap32 p))
  | OClos _ _ _ => Abort
  end.

(** ** Dictionaries whose hash and comparison functions may fail *)
Section RDict.
Context {K V : Type}.
Variable hashf : K -> res Z.
Variable cmpf : K -> K -> res Z.

(** The search loop of buzzdict.c 83-87. *)
Fixpoint rfind (k : K) (l : list (K * V)) : res (option V) :=
  match l with
  | [] => Ok None
  | e :: t => c <- cmpf k (fst e) ;; if c =? 0 then Ok (Some (snd e)) else rfind k t
  end.
(** The search-and-delete loops of buzzdict.c 113-122 and 141-155. *)
Fixpoint rdel (k : K) (l : list (K * V)) : res (list (K * V)) :=
  match l with
  | [] => Ok []
  | e :: t => c <- cmpf k (fst e) ;; if c =? 0 then Ok t else t' <- rdel k t ;; Ok (e :: t')
  end.
Definition rslot (p : pdict K V) (k : K) : res nat :=
  h <- hashf k ;; Ok (Z.to_nat (h mod zlen p)).
(** buzzdict_rawget, buzzdict.c 76-90. *)
Definition rget (p : pdict K V) (k : K) : res (option V) :=
  h <- rslot p k ;; rfind k (nth h p []).
(** buzzdict_set, buzzdict.c 95-129. *)
Definition rset (p : pdict K V) (k : K) (v : V) : res (pdict K V) :=
  h <- rslot p k ;; l <- rdel k (nth h p []) ;; Ok (upd p h (l ++ [(k, v)])).
(** buzzdict_remove, buzzdict.c 134-158. *)
Definition rremove (p : pdict K V) (k : K) : res (pdict K V) :=
  h <- rslot p k ;; l <- rdel k (nth h p []) ;; Ok (upd p h l).
End RDict.

(** Buzz tables: buzzobj_new, buzztype.c 45-52 (BUZZTYPE_TABLE_BUCKETS = 10). *)
Definition table := pdict obj obj.
Definition tab_new : table := pnew 10.
Definition tab_get : table -> obj -> res (option obj) := rget table_hash obj_cmp.
Definition tab_set : table -> obj -> obj -> res table := rset table_hash obj_cmp.
Definition tab_remove : table -> obj -> res table := rremove table_hash obj_cmp.

(** buzzobj_eq, buzztype.c 111-131.  (Strings: always 0, as in the source.  Closures are
    compared by the address of their activation record, which the model does not have:
    the result is left to a parameter.) *)
Definition obj_eq (same_actrec : bool) (a b : obj) : bool :=
  match a, b with
  | ONil, ONil => true
  | OInt x, OInt y => x =? y
  | OFloat x, OFloat y => feq x y
  | OTab p, OTab q => p =? q
  | OClos n r _, OClos n' r' _ => Bool.eqb n n' && (r =? r') && same_actrec
  | OUser p, OUser q => p =? q
  | _, _ => false
  end.

(** Truth of a value as tested by jumpz, jumpnz, land, lor, filter, ...: buzzvm.c 84-97, 954-983 and the
    filter of buzztype.c 486-488. *)
Definition truthy (o : obj) : bool :=
  match o with ONil => false | OInt z => negb (z =? 0) | _ => true end.
