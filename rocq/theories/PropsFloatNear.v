(** float() of any integer gives a float nearest to it (C80). *)
From Verif Require Import Base ListLemmas Float FloatProofs Dict PDict Strman Obj ObjSpec ObjProofs Instr Vm VmSpec VmProofs VmFrames CFunSpec CFunProofs PropsVmData Strlib PropsStrlib TableLib TableLibProofs PropsTableLib FloatNear.

(** [fval] is the value of a float in units of 2^-149: no float is nearer to the integer than the result, and if another one is as near the significand of the result is even. *)
Theorem C80_float_nearest :
  forall X (v : vm X) i ra s rest L, called v [OInt i] ra s rest L -> - 2 ^ 31 <= i < 2 ^ 31 ->
    exists v' f, obj_float v = Ok v' /\ gives v ra s rest L (OFloat f) v' /\ valid_f32 f = true /\ finite_f32 f = true /\
      forall g, valid_f32 g = true -> finite_f32 g = true ->
        Z.abs (fval f - i * 2 ^ 149) <= Z.abs (fval g - i * 2 ^ 149) /\
        (Z.abs (fval f - i * 2 ^ 149) = Z.abs (fval g - i * 2 ^ 149) -> fval g = fval f \/ exists s m e, f = S754_finite s m e /\ Z.even (Zpos m) = true).
Proof.
  intros X v i ra s rest L HC Hi. pose proof HC as HC0. call_start HC. unfold obj_float, lnum_assert. rewrite (lnum_ok _ _ _ HL). cbn [bind].
  change (zlen (self :: [OInt i]) - 1 =? 1) with true. cbv iota. rewrite (lload_ok v _ L 1 (OInt i) HL ltac:(lia) eq_refl). cbn [bind].
  unfold type_assert. rewrite top_push. cbn [bind]. change (otype (OInt i) =? T_INT) with true. cbv iota. unfold top_int. rewrite top_push. cbn [bind].
  destruct (gives_ret1 v (push (dpop (push v (OInt i))) (OFloat (f_of_Z i))) (OFloat (f_of_Z i)) [] [OInt i] ra s rest L HC0) as (v' & E & HG & _); auto.
  { cbn. unfold stack. cbn. rewrite HS. reflexivity. }
  exists v', (f_of_Z i). split; [exact E|]. split; [exact HG|]. apply f_of_Z_nearest. assert (2 ^ 31 < 2 ^ 127) by (apply Z.pow_lt_mono_r; lia). lia.
Qed.
Print Assumptions C80_float_nearest.
(** So float() never exchanges the order of two integers. *)
Theorem C80_float_monotone :
  forall X (v w v' w' : vm X) i j f g ra s rest L rb t rest' M, called v [OInt i] ra s rest L -> called w [OInt j] rb t rest' M ->
    - 2 ^ 31 <= i -> i < j -> j < 2 ^ 31 ->
    obj_float v = Ok v' -> gives v ra s rest L (OFloat f) v' -> obj_float w = Ok w' -> gives w rb t rest' M (OFloat g) w' -> fval f <= fval g.
Proof.
  intros X v w v' w' i j f g ra s rest L rb t rest' M HV HW Hi Hij Hj E1 G1 E2 G2.
  destruct (C80_float_nearest X v i ra s rest L HV ltac:(lia)) as (v1 & f1 & A1 & A2 & A3 & A4 & A5).
  destruct (C80_float_nearest X w j rb t rest' M HW ltac:(lia)) as (w1 & g1 & B1 & B2 & B3 & B4 & B5).
  rewrite E1 in A1. injection A1 as <-. rewrite E2 in B1. injection B1 as <-.
  assert (f1 = f) as ->. { pose proof (gv_stacks _ _ _ _ _ _ _ G1). pose proof (gv_stacks _ _ _ _ _ _ _ A2). congruence. }
  assert (g1 = g) as ->. { pose proof (gv_stacks _ _ _ _ _ _ _ G2). pose proof (gv_stacks _ _ _ _ _ _ _ B2). congruence. }
  destruct (A5 g B3 B4) as [A6 _]. destruct (B5 f A3 A4) as [B6 _].
  lia.
Qed.
Print Assumptions C80_float_monotone.
(** 2^24 + 1 is not a float: the result is 2^24, the even neighbour; 2^31 - 1 gives 2^31. *)
Example C80_float_case :
  called (lib_vm [OInt 16777217]) [OInt 16777217] 30 [OInt 99] [[]] [mkLs [] false] /\ called (lib_vm [OInt 2147483647]) [OInt 2147483647] 30 [OInt 99] [[]] [mkLs [] false] /\
  match obj_float (lib_vm [OInt 16777217]) with Ok v => hd [] (v_stacks v) = [OFloat (S754_finite false 8388608 1); OInt 99] | _ => False end /\
  match obj_float (lib_vm [OInt 2147483647]) with Ok v => hd [] (v_stacks v) = [OFloat (S754_finite false 8388608 8); OInt 99] | _ => False end.
Proof. split; [apply lib_called|]. split; [apply lib_called|]. split; vm_compute; reflexivity. Qed.
