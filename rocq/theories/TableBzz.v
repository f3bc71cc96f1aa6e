(** table.bzz, a library written in Buzz: its text, and words to say what its functions swap and sort do. *)
From Coq Require Import String.
From Verif Require Import Base Float Dict PDict Strman Obj Instr Vm VmSpec Text Source CompileSpec GcSpec HostSpec NeighborsVmSpec Front StringBzz StdSpec.
Local Open Scope Z_scope.
Local Open Scope list_scope.

(** src/include/table.bzz 1-147, the whole file. *)
Definition table_bzz_text : str := bs "#
# Make 'table' namespace
#
table = {}

#
# Returns the maximum value in the table
#
table.max = function(t) {
  return reduce(t, function(k, v, a) {
      return math.max(v, a)
    },
    nil)
}

#
# Returns the maximum key in the table
#
table.maxkey = function(t) {
  return reduce(t, function(k, v, a) {
      return math.max(k, a)
    },
    nil)
}

#
# Returns the minimum value in the table
#
table.min = function(t) {
  return reduce(t, function(k, v, a) {
      return math.min(v, a)
    },
    nil)
}

#
# Returns the minimum key in the table
#
table.minkey = function(t) {
  return reduce(t, function(k, v, a) {
      return math.min(k, a)
    },
    nil)
}

#
# Prints the contents of a table.
# PARAM t: The table
#
table.print = function(t) {
  foreach(t, function(k,v) {
      log(k, "" -> "", v)
    })
}

#
# Swap table elements.
# PARAM t: The table
# PARAM a: Index of first element 
# PARAM b: Index of second element
#
table.swap = function(t, i, j) {
  if(i != j) {
    var k = t[i]
    t[i] = t[j]
    t[j] = k
  }
}

#
# Number comparator.
# PARAM a: A number
# PARAM b: A number
# RETURN: nil if a > b, 1 otherwise
#
table.cmp_number = function(a, b) {
  return (a <= b)
}

#
# In-place table sorting.
# Sorts the elements of a table using the given precedence comparator.
# The comparator must follow this logic:
# function cmp(a,b) {
#   if(a <= b) return 1
#   else return 0
# }
#
# PARAM t:   The table
# PARAM cmp: The comparator
#
table.sort = function(t, cmp) {
  #
  # Partition elements by pivot
  #
  partition = function(l, h) {
    # We use the last element as pivot 
    pivot = t[h]
    # Used to mark the current element after the pivot
    var i = l
    # Move elements according to pivot
    var j = l
    while(j < h) {
      # Compare current element with pivot
      if(cmp(t[j], pivot)) {
        # Swap current element with smallest
        table.swap(t, i, j)
        # Increase index of element after pivot
        i = i + 1
      }
      # Next element
      j = j + 1
    }
    # Swap pivot element with smallest
    table.swap(t, i, h)
    return i
  }
  #
  # Quicksort
  #
  qsort = function(l, h) {
    # There are still elements to partition
    if(l < h) {
      # Partitioning index
      var p = partition(l, h)
      # Sort elements before and after p
      qsort(l, p-1)
      qsort(p+1, h)
    }
  }
  qsort(0, size(t)-1)
}

#
# In-place table shuffling.
# PARAM t: The table
#
table.shuffle = function(t) {
  # Durstenfeld shuffle algorithm
  var i = 0
  var sz = size(t)
  while(i < sz-1) {
    var j = math.rng.uniform(i, sz)
    table.swap(t, i, j)
    i = i + 1
  }
}
"%string.
Definition table_bzz_file (name : str) : option (str * str) := Some (bs "/table.bzz", table_bzz_text).
Definition table_bzz : stats := Eval vm_compute in got_script (script_of (fun _ => None) table_bzz_file 4000 []).

(** The numbers of functions, which only name them, changed by [g]. *)
Section Renum.
Variable g : Z -> Z.
Fixpoint renum_e (e : expr) : expr :=
  match e with
  | E_un u e => E_un u (renum_e e)
  | E_bin b e1 e2 => E_bin b (renum_e e1) (renum_e e2)
  | E_table l => E_table (renum_f l)
  | E_get e k => E_get (renum_e e) (renum_e k)
  | E_call f l => E_call (renum_e f) (renum_es l)
  | E_fun i ps b => E_fun (g i) ps (renum b)
  | _ => e
  end
with renum_es (l : exprs) : exprs := match l with Es_nil => Es_nil | Es_cons e r => Es_cons (renum_e e) (renum_es r) end
with renum_f (l : fields) : fields := match l with F_nil => F_nil | F_cons k e r => F_cons (renum_e k) (renum_e e) (renum_f r) end
with renum_s (s : stat) : stat :=
  match s with
  | S_varinit x e => S_varinit x (renum_e e)
  | S_assign x e => S_assign x (renum_e e)
  | S_put e k v => S_put (renum_e e) (renum_e k) (renum_e v)
  | S_call f l => S_call (renum_e f) (renum_es l)
  | S_if c b => S_if (renum_e c) (renum_b b)
  | S_ifelse c b1 b2 => S_ifelse (renum_e c) (renum_b b1) (renum_b b2)
  | S_while c b => S_while (renum_e c) (renum_b b)
  | S_for i c u b => S_for (renum_s i) (renum_e c) (renum_s u) (renum_b b)
  | S_returnval e => S_returnval (renum_e e)
  | S_fun i n ps b => S_fun (g i) n ps (renum b)
  | _ => s
  end
with renum_b (b : body) : body := match b with Block l => Block (renum l) | Single s => Single (renum_s s) end
with renum (l : stats) : stats := match l with Ss_nil => Ss_nil | Ss_cons s r => Ss_cons (renum_s s) (renum r) end.
End Renum.
Fixpoint stats_app (l r : stats) : stats := match l with Ss_nil => r | Ss_cons s l => Ss_cons s (stats_app l r) end.
(** The statements of table.bzz, in front of others. *)
Definition table_bzz_with (g : Z -> Z) (r : stats) : stats := Eval vm_compute in stats_app (renum g table_bzz) r.

(** The functions that these statements put into the table [table]: name, number, parameters and statements. *)
Fixpoint member_id (x n : string) (l : stats) : Z :=
  match l with
  | Ss_nil => 0
  | Ss_cons (S_put (E_var y) (E_str k) (E_fun i _ _)) r => if same y (bs x) && same k (bs n) then i else member_id x n r
  | Ss_cons _ r => member_id x n r
  end.
Definition table_names : list string := ["max"; "maxkey"; "min"; "minkey"; "print"; "swap"; "cmp_number"; "sort"; "shuffle"]%string.
Definition table_members (g : Z -> Z) : list (string * Z * (list str * stats)) :=
  Eval vm_compute in map (fun n => (n, member_id "table" n (table_bzz_with g Ss_nil), member_fun "table" n (table_bzz_with g Ss_nil))) table_names.
(** The function a statement gives to a global variable. *)
Fixpoint glob_fun (x : string) (l : stats) : Z * (list str * stats) :=
  match l with
  | Ss_nil => (0, ([], Ss_nil))
  | Ss_cons (S_assign y (E_fun i ps b)) r => if same y (bs x) then (i, (ps, b)) else glob_fun x r
  | Ss_cons _ r => glob_fun x r
  end.
Definition swap_fun := Eval vm_compute in member_fun "table" "swap" table_bzz.
Definition cmp_number_fun := Eval vm_compute in member_fun "table" "cmp_number" table_bzz.
Definition sort_fun (g : Z -> Z) := Eval vm_compute in member_fun "table" "sort" (table_bzz_with g Ss_nil).
(** The functions inside sort: their numbers, parameters and statements. *)
Definition partition_fun (g : Z -> Z) := Eval vm_compute in glob_fun "partition" (snd (sort_fun g)).
Definition qsort_fun (g : Z -> Z) := Eval vm_compute in glob_fun "qsort" (snd (sort_fun g)).
Definition inner_vars : list str := [bs "self"; bs "t"; bs "cmp"; bs "l"; bs "h"].

(** A list, as a table: its elements under 0, 1, ..., and no other integer. *)
Definition int_list (t : table) (l : list obj) : Prop :=
  built int_key t /\ forall k, int32_range k -> tab_get t (OInt k) = Ok (if 0 <=? k then nth_error l (Z.to_nat k) else None).
(** The values that a table keeps as they are: not nil, which removes an entry, and not functions, which become methods. *)
Definition storable (o : obj) : Prop := match o with ONil | OClos _ _ _ => False | _ => True end.


Section Words.
Context {X : Type}.
Notation sst := (sst X).
Variable sid : str -> Z.
Variable ref : Z -> Z.
Variable fns : list func.
Variable cfun : Z -> list obj -> sst -> out (obj * sst).
(** The table [table], at [ta], after table.bzz was included; the function size. *)
Record table_lib (g : Z -> Z) (ta : Z) (st : sst) : Prop := {
  tl_at : s_glob st (bs "table") = OTab ta;
  tl_size : c_value cfun (s_glob st (bs "size")) (fun args => one_arg size_of (ONil :: args));
  tl_swap : exists o, member sid st "table" "swap" o /\ fun_value ref fns o swap_fun;
  tl_cmp : exists o, member sid st "table" "cmp_number" o /\ fun_value ref fns o cmp_number_fun;
  tl_sort : exists o, member sid st "table" "sort" o /\ fun_value ref fns o (sort_fun g);
  tl_partition : exists fn, find (fun fn => ref (fn_id fn) =? ref (fst (partition_fun g))) fns = Some fn /\ fn_vars fn = inner_vars /\ fn_body fn = snd (snd (partition_fun g));
  tl_qsort : exists fn, find (fun fn => ref (fn_id fn) =? ref (fst (qsort_fun g))) fns = Some fn /\ fn_vars fn = inner_vars /\ fn_body fn = snd (snd (qsort_fun g))
}.
(** The state with another table at [a]. *)
Definition with_table (st : sst) (a : Z) (t : table) : sst := set_tabs st (upd (s_heap st) (Z.to_nat a) t).
(** The state is as [st0] but for the table at [a] and the three global variables that table.sort sets. *)
Definition sort_names : list str := [bs "partition"; bs "qsort"; bs "pivot"].
Definition during (a : Z) (st0 st : sst) : Prop :=
  s_str st = s_str st0 /\ s_ext st = s_ext st0 /\ (forall x, ~ In x sort_names -> s_glob st x = s_glob st0 x) /\
  length (s_heap st) = length (s_heap st0) /\ forall b, b <> Z.to_nat a -> nth_error (s_heap st) b = nth_error (s_heap st0) b.
End Words.
