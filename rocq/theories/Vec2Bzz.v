(** vec2.bzz, a library written in Buzz: its text, and words to say what its functions do. *)
From Coq Require Import String.
From Verif Require Import Base Float Dict PDict Strman Obj Instr Vm VmSpec Text Source CompileSpec GcSpec HostSpec CFunSpec NeighborsVmSpec Front StringBzz StdSpec TableBzz.
Local Open Scope Z_scope.
Local Open Scope list_scope.

(** src/include/vec2.bzz 1-120, the whole file. *)
Definition vec2_bzz_text : str := bs "#
# Create a new namespace for vector2 functions
#
math.vec2 = {}

#
# Creates a new vector2.
# PARAM x: The x coordinate.
# PARAM y: The y coordinate.
# RETURN: A new vector2.
#
math.vec2.new = function(x, y) {
  return { .x = x, .y = y }
}

#
# Creates a new vector2 from polar coordinates.
# PARAM l: The length of the vector2.
# PARAM a: The angle of the vector2.
# RETURN: A new vector2.
#
math.vec2.newp = function(l, a) {
  return {
    .x = l * math.cos(a),
    .y = l * math.sin(a)
  }
}

#
# Calculates the length of the given vector2.
# PARAM v: The vector2.
# RETURN: The length of the vector.
#
math.vec2.length = function(v) {
  return math.sqrt(v.x * v.x + v.y * v.y)
}

#
# Calculates the angle of the given vector2.
# PARAM v: The vector2.
# RETURN: The angle of the vector.
#
math.vec2.angle = function(v) {
  return math.atan(v.y, v.x)
}

#
# Returns the normalized form of a vector2.
# PARAM v: The vector2.
# RETURN: The normalized form.
#
math.vec2.norm = function(v) {
  var l = math.vec2.length(v)
  return {
    .x = v.x / l,
    .y = v.y / l
  }
}

#
# Calculates v1 + v2.
# PARAM v1: A vector2.
# PARAM v2: A vector2.
# RETURN: v1 + v2
#
math.vec2.add = function(v1, v2) {
  return {
    .x = v1.x + v2.x,
    .y = v1.y + v2.y
  }
}

#
# Calculates v1 - v2.
# PARAM v1: A vector2.
# PARAM v2: A vector2.
# RETURN: v1 - v2
#
math.vec2.sub = function(v1, v2) {
  return {
    .x = v1.x - v2.x,
    .y = v1.y - v2.y
  }
}

#
# Scales a vector by a numeric constant.
# PARAM v: A vector2.
# PARAM s: A number (float or int).
# RETURN: s * v
#
math.vec2.scale = function(v, s) {
  return {
    .x = v.x * s,
    .y = v.y * s
  }
}

#
# Calculates v1 . v2 (the dot product)
# PARAM v1: A vector2.
# PARAM v2: A vector2.
# RETURN: v1 . v2
#
math.vec2.dot = function(v1, v2) {
  return v1.x * v2.x + v1.y * v2.y
}

#
# Rotates v by angle a (in radians)
# PARAM v: A vector2
# PARAM a: An angle (in radians)
# RETURN: the rotated vector
#
math.vec2.rotate = function(v, a) {
  return {
    .x = v.x * math.cos(a) - v.y * math.sin(a),
    .y = v.x * math.sin(a) + v.y * math.cos(a)
  }
}
"%string.
Definition vec2_bzz_file (name : str) : option (str * str) := Some (bs "/vec2.bzz", vec2_bzz_text).
Definition vec2_bzz : stats := Eval vm_compute in got_script (script_of (fun _ => None) vec2_bzz_file 4000 []).
(** The statements of vec2.bzz, in front of others; [g] changes the numbers of its functions, which only name them. *)
Definition vec2_bzz_with (g : Z -> Z) (r : stats) : stats := Eval vm_compute in stats_app (renum g vec2_bzz) r.

(** The functions that the statements put into the table math.vec2: number, parameters and statements. *)
Definition vec2_names : list string := ["new"; "newp"; "length"; "angle"; "norm"; "add"; "sub"; "scale"; "dot"; "rotate"]%string.
Fixpoint vec2_member (n : string) (l : stats) : Z * (list str * stats) :=
  match l with
  | Ss_nil => (0, ([], Ss_nil))
  | Ss_cons (S_put (E_get (E_var x) (E_str y)) (E_str k) (E_fun i ps b)) r =>
      if same x (bs "math") && same y (bs "vec2") && same k (bs n) then (i, (ps, b)) else vec2_member n r
  | Ss_cons _ r => vec2_member n r
  end.
Definition vec2_members (g : Z -> Z) : list (string * Z * (list str * stats)) :=
  Eval vm_compute in map (fun n => let '(i, f) := vec2_member n (vec2_bzz_with g Ss_nil) in (n, i, f)) vec2_names.
Definition vec2_fun (n : string) : list str * stats := snd (vec2_member n vec2_bzz).

Section Words.
Context {X : Type}.
Notation sst := (sst X).
Variable sid : str -> Z.
Variable ref : Z -> Z.
Variable fns : list func.
Variable cfun : Z -> list obj -> sst -> out (obj * sst).
Variable c : clib.
(** The value under a name in a table. *)
Definition named (st : sst) (o : obj) (n : string) (x : obj) : Prop := get_val st o (OStr (sid (bs n)) (bs n)) = Done x.
(** The value of math.vec2.n. *)
Definition in_vec2 (st : sst) (n : string) (o : obj) : Prop := exists w, member sid st "math" "vec2" w /\ named st w n o.
(** A function in C from the numbers to the floats, by its name in Buzz. *)
Definition real (n : string) (args : list obj) (st : sst) : out (obj * sst) :=
  number (fun i => Done (OFloat (c_real c n (f_of_Z i)))) (fun f => Done (OFloat (c_real c n f))) (ONil :: args) st.
(** The table math.vec2 after vec2.bzz was included, and the functions of math it uses. *)
Record vec2_lib (st : sst) : Prop := {
  vl_strings : good_strings (s_str st);
  vl_x : live_key (s_str st) (OStr (sid (bs "x")) (bs "x"));
  vl_y : live_key (s_str st) (OStr (sid (bs "y")) (bs "y"));
  vl_real : forall n, In n ["sqrt"; "sin"; "cos"]%string -> exists o, member sid st "math" n o /\ c_value cfun o (real n);
  vl_atan : exists o, member sid st "math" "atan" o /\ c_value cfun o (fun args => atan c (ONil :: args));
  vl_fun : forall n, In n vec2_names -> exists o, in_vec2 st n o /\ fun_value ref fns o (vec2_fun n)
}.
(** [v] is a table with [x] and [y] under these names. *)
Definition vector (st : sst) (v x y : obj) : Prop := named st v "x" x /\ named st v "y" y.
(** [v] is a new table, the only difference of the state [st'] from [st]; it has [x] and [y], and no other entry. *)
Definition new_vector (st : sst) (x y v : obj) (st' : sst) : Prop :=
  exists t, v = OTab (zlen (s_heap st)) /\ st' = set_tabs st (s_heap st ++ [t]) /\ vector st' v x y /\ zlen (pentries t) = 2.
End Words.
