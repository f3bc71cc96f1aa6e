(** Model of the debug information and of the debugger, src/buzz/buzzdebug.c.

    File names are stored once, in a set (buzzdebug.c 203-215); here every entry has its name.  The list
    of breakpoints is a dynamic array (buzzdebug.c 98), here a list (C01, C04).  Files are lists of bytes
    on a little-endian machine; opening, reading and writing them succeeds. *)
From Verif Require Import Base Float Dict PDict Strman Obj Instr Vm Text.

(** struct buzzdebug_entry_s, buzzdebug.h 16-24. *)
Record dentry := mkDe { de_line : Z; de_col : Z; de_file : str }.
(** buzzdebug_entryhash, buzzdebug.c 33-41: the hash of "file:line:col". *)
Definition entryhash (e : dentry) : Z :=
  strkeyhash (de_file e ++ [58] ++ print_u (de_line e) ++ [58] ++ print_u (de_col e)).
(** buzzdebug_entrycmp, buzzdebug.c 43-57. *)
Definition entrycmp (x y : dentry) : Z :=
  let c := strcmp (de_file x) (de_file y) in
  if c =? 0 then
    if de_line x <? de_line y then -1 else if de_line y <? de_line x then 1
    else if de_col x <? de_col y then -1 else if de_col y <? de_col x then 1 else 0
  else c.

(** struct buzzdebug_s, buzzdebug.h 40-51. *)
Record dbg := mkDbg {
  off2script : pdict Z dentry;
  script2off : pdict dentry Z;
  breakpoints : list Z
}.
(** buzzdebug_new, buzzdebug.c 74-99. *)
Definition dbg_new : dbg := mkDbg (pnew 100) (pnew 100) [].

Definition o2s_get := pget (V:=dentry) uintkeyhash intkeycmp.
Definition o2s_set := pset (V:=dentry) uintkeyhash intkeycmp.
Definition s2o_get := pget (V:=Z) entryhash entrycmp.
Definition s2o_set := pset (V:=Z) entryhash entrycmp.

(** buzzdebug_info_set, buzzdebug.c 197-231. *)
Definition info_set (d : dbg) (off line col : Z) (file : str) : dbg :=
  let e := mkDe line col file in
  mkDbg (o2s_set (off2script d) off e)
        (match s2o_get (script2off d) e with
         | Some o => if off <? o then s2o_set (script2off d) e off else script2off d
         | None => s2o_set (script2off d) e off
         end)
        (breakpoints d).
(** buzzdebug_info_get_fromscript, buzzdebug.c 236-248; buzzdebug_info_get_fromoffset, _count and
    _exists_offset, buzzdebug.h 213-233. *)
Definition from_script (d : dbg) (line col : Z) (file : str) : option Z := s2o_get (script2off d) (mkDe line col file).
Definition from_offset (d : dbg) (off : Z) : option dentry := o2s_get (off2script d) off.
Definition info_count (d : dbg) : Z := psize (off2script d).

(** Unsigned little-endian numbers of n bytes. *)
Fixpoint le (n : nat) (z : Z) : list Z := match n with O => [] | S m => z mod 256 :: le m (z / 256) end.
Fixpoint unle (l : list Z) : Z := match l with [] => 0 | b :: t => b + 256 * unle t end.

(** buzzdebug_entry_dump, buzzdebug.c 161-176: strlen is converted to uint16_t. *)
Definition dump_entry (x : Z * dentry) : list Z :=
  let '(off, e) := x in
  let n := wrap16 (zlen (de_file e)) in
  le 4 off ++ le 8 (de_line e) ++ le 8 (de_col e) ++ le 2 n ++ firstn (Z.to_nat n) (de_file e).
(** buzzdebug_tofile, buzzdebug.c 178-192: the file and the value returned. *)
Definition tofile (d : dbg) : list Z * Z := (concat (map dump_entry (pentries (off2script d))), 0).

(** The loop of buzzdebug_fromfile, buzzdebug.c 117-148.  [max]: the size of the buffer (srcfnlenmax).
    The terminator is written at index srcfnlen (136), outside the buffer when srcfnlen is its size; a
    buffer of 65535+1 bytes has size 0 (realloc to 0 bytes frees it).  The name is then read as a C
    string. *)
Fixpoint load_entries (fuel : nat) (f : list Z) (max : Z) (d : dbg) : res dbg :=
  match fuel with
  | O => Hang
  | S n =>
      if zlen f <? 22 then Ok d
      else
        let off := unle (firstn 4 f) in
        let line := unle (firstn 8 (skipn 4 f)) in
        let col := unle (firstn 8 (skipn 12 f)) in
        let len := unle (firstn 2 (skipn 20 f)) in
        let max1 := if max <? len then wrap16 (len + 1) else max in
        let rest := skipn 22 f in
        if max1 <? len then UB
        else if zlen rest <? len then Ok d
        else if len =? max1 then UB
        else load_entries n (skipn (Z.to_nat len) rest) max1
               (info_set d (sign32 off) line col (cstr (firstn (Z.to_nat len) rest)))
  end.
(** buzzdebug_fromfile, buzzdebug.c 115-151: the entries are added to those present. *)
Definition fromfile (d : dbg) (f : list Z) : res (dbg * Z) :=
  d1 <- load_entries (S (length f)) f 512 d ;; Ok (d1, 1).

(** buzzdebug_breakpoint_set_offset, buzzdebug.c 261-267, _exists 272-277; _remove (by index) and _clear,
    buzzdebug.h 246-254. *)
Definition bp_exists (d : dbg) (off : Z) : bool := existsb (Z.eqb off) (breakpoints d).
Definition set_bps (d : dbg) (l : list Z) : dbg := mkDbg (off2script d) (script2off d) l.
Definition bp_set (d : dbg) (off : Z) : dbg :=
  if bp_exists d off then d else set_bps d (breakpoints d ++ [off]).
Definition bp_remove (d : dbg) (i : Z) : dbg :=
  if (0 <=? i) && (i <? zlen (breakpoints d)) then set_bps d (del (breakpoints d) (Z.to_nat i)) else d.
Definition bp_clear (d : dbg) : dbg := set_bps d [].

Section Run.
Context {X : Type}.
Notation vm := (vm X).
Implicit Types v : vm.
Variable flist : list (vm -> res vm).
Variable powf : libm.
Variable code : Z -> Z.
Variable size : Z.
Variable d : dbg.
Notation vm_step := (vm_step flist powf code size).

(** The loop of buzzdebug_continue, buzzdebug.c 291-292. *)
Fixpoint run_to_bp (fuel : nat) v : res vm :=
  match fuel with
  | O => Hang
  | S f =>
      if bp_exists d (v_pc v) then Ok v
      else v1 <- vm_step v ;; if is_ready (v_state v1) then run_to_bp f v1 else Ok v1
  end.
(** Resuming a stopped VM, buzzdebug.c 285-289. *)
Definition resume v : vm := match v_state v with S_STOPPED => set_state v S_READY (v_error v) | _ => v end.
Definition stop v : vm := set_state v S_STOPPED (v_error v).
(** buzzdebug_continue, buzzdebug.c 282-296. *)
Definition continue_ (fuel : nat) v : res vm :=
  let v := resume v in
  if is_ready (v_state v) then
    v1 <- run_to_bp fuel v ;;
    Ok (if bp_exists d (v_pc v1) then stop v1 else v1)
  else Ok v.

(** The loop of buzzdebug_closure_call, buzzdebug.c 318-324. *)
Fixpoint debug_until (fuel : nat) (depth : Z) v : res vm :=
  match fuel with
  | O => Hang
  | S f =>
      let v0 := if bp_exists d (v_pc v) then stop v else v in
      v1 <- vm_step v0 ;;
      if negb (is_ready (v_state v1)) then Ok v1
      else if depth <? zlen (v_stacks v1) then debug_until f depth v1 else Ok v1
  end.
(** buzzdebug_closure_call, buzzdebug.c 301-326.  Line 311 inserts the first bytes of a new nil object, which
    are 0, instead of its address; buzzvm_call pops that NULL without looking at it. *)
Definition debug_closure_call (fuel : nat) v (argc : Z) : res vm :=
  let v := resume v in
  if negb (is_ready (v_state v)) then Ok v else
  let n := Z.to_nat (argc + 1) in
  let s := stack v in
  if zlen s <? argc + 1 then UB
  else
    let v1 := push (set_stack v (firstn n s ++ ONil :: skipn n s)) (OInt argc) in
    v2 <- vm_call flist v1 false ;;
    debug_until fuel (zlen (v_stacks v1)) v2.
End Run.
