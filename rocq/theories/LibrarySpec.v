(** Specification vocabulary for the standard library: the names a script finds, and what they denote. *)
From Coq Require Import String.
From Verif Require Import Base Float Dict PDict Strman StrmanSpec Obj Text Source NeighborsVmSpec.
Local Open Scope Z_scope.
Local Open Scope list_scope.

(** A function in C, by its name; a value; a text; a table of the library, by its number. *)
Inductive value : Type := V_C (f : string) | V_val (o : obj) | V_text (t : string) | V_table (i : Z).

(** The single precision number nearest to pi: 13176795 / 2^22, at most half a unit of the last place away. *)
Definition pi_value : f32 := S754_finite false 13176795 (-22).
Example pi_nearest : 2 * Z.abs (13176795 * 10 ^ 20 - 314159265358979323846 * 2 ^ 22) < 10 ^ 20. Proof. reflexivity. Qed.

(** The members of the tables of the library. *)
Definition c_members (prefix : string) (l : list string) : list (string * value) := map (fun n => (n, V_C (prefix ++ n)%string)) l.
Definition library_tables : list (list (string * value)) :=
  [ (* 0: neighbors *)
    c_members "buzzneighbors_" ["get"; "filter"; "kin"; "nonkin"; "foreach"; "map"; "reduce"; "count"; "broadcast"; "listen"; "ignore"]%string;
    (* 1: stigmergy *)
    c_members "buzzvstig_" ["create"]%string;
    (* 2: swarm *)
    c_members "buzzswarm_" ["create"; "union"; "intersection"; "difference"; "id"]%string;
    (* 3: math *)
    c_members "buzzmath_" ["abs"; "floor"; "ceil"; "round"; "log"; "log2"; "log10"; "exp"; "sqrt"; "sin"; "cos"; "tan"; "asin"; "acos"; "atan"; "min"; "max"]%string
      ++ [("pi"%string, V_val (OFloat pi_value)); ("rng"%string, V_table 4)];
    (* 4: math.rng *)
    c_members "buzzmath_rng_" ["setseed"; "uniform"; "gaussian"; "exponential"]%string;
    (* 5: io *)
    c_members "buzzio_" ["fopen"; "fclose"; "fsize"; "fforeach"; "fwrite"]%string
      ++ [("errno"%string, V_val (OInt 0)); ("error_message"%string, V_text "No error")];
    (* 6: string *)
    c_members "buzzstring_" ["length"; "sub"; "concat"; "tostring"; "toint"; "tofloat"]%string ].
(** The global variables of the library. *)
Definition library_globals (robot : Z) : list (string * value) :=
  [("neighbors"%string, V_table 0); ("stigmergy"%string, V_table 1); ("swarm"%string, V_table 2); ("math"%string, V_table 3);
   ("io"%string, V_table 5); ("string"%string, V_table 6); ("id"%string, V_val (OInt robot))]
  ++ c_members "buzzobj_" ["type"; "int"; "float"; "clone"; "size"; "foreach"; "map"; "reduce"; "filter"]%string
  ++ map (fun n => (("is" ++ n)%string, V_C ("buzzobj_closure_is" ++ n)%string)) ["nil"; "int"; "float"; "string"; "table"; "closure"; "userdata"]%string.
(** The strings of the library. *)
Definition library_names : list string :=
  "No error"%string :: map fst (library_globals 0) ++ concat (map (map fst) library_tables).

(** [o] is the value [x]: [fid] are the numbers of the C functions, [b] the position of table 0, [self] the self of functions. *)
Definition denotes (fid : string -> Z) (sm : strman) (b : Z) (self : obj) (x : value) (o : obj) : Prop :=
  match x with
  | V_C f => o = OClos false (sign32 (fid f)) [self]
  | V_val y => o = y
  | V_text t => exists id, 0 <= id < 65536 /\ sm_get sm id = Some (bs t) /\ o = OStr id (bs t)
  | V_table i => o = OTab (b + i)
  end.
(** The table at [a] has the given members, and no other entry; it was made by writes. *)
Definition has_members fid sm b (a : Z) (t : table) (l : list (string * value)) : Prop :=
  (forall n x, In (n, x) l -> exists o, denotes fid sm b (OTab a) x o /\ field sm t n o) /\ zlen (pentries t) = zlen l /\ made sm t.

(** [st] is [st0] with the library. *)
Record library {X} (fid : string -> Z) (robot : Z) (st0 st : sst X) : Prop := {
  lib_tables : exists ts, s_heap st = s_heap st0 ++ ts /\ zlen ts = zlen library_tables /\
    forall i l t, nth_error library_tables i = Some l -> nth_error ts i = Some t ->
      has_members fid (s_str st) (zlen (s_heap st0)) (zlen (s_heap st0) + Z.of_nat i) t l;
  lib_globals : forall n x, In (n, x) (library_globals robot) -> denotes fid (s_str st) (zlen (s_heap st0)) ONil x (s_glob st (bs n));
  lib_others : forall y, ~ In y (map (fun e => bs (fst e)) (library_globals robot)) -> s_glob st y = s_glob st0 y;
  lib_strings : keeps_strings (s_str st0) (s_str st);
  lib_live : sm_live (s_str st) < 65534;
  lib_ext : s_ext st = s_ext st0
}.
