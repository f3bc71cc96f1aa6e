(** Specification vocabulary for the mathematical functions. *)
From Verif Require Import Base Float Obj ObjSpec Vm VmSpec CFunSpec Mathlib.

(** The states of the generator: after setting a seed, and after drawing numbers. *)
Inductive generated : mt -> Prop :=
| gen_seed r0 seed r : zlen (mt_state r0) = 624 -> mt_setseed r0 seed = Ok r -> generated r
| gen_draw r y r' : generated r -> mt_uniform32 r = Ok (y, r') -> generated r'.

(** The generator can be read from and stored in the VM. *)
Definition rng_place {X} (getr : X -> mt) (setr : X -> mt -> X) : Prop := forall x r, getr (setr x r) = r.

(** The value of a number, times 2^149. *)
Definition num_value (o : obj) : Z := match o with OInt i => i * 2 ^ 149 | OFloat f => fval f | _ => 0 end.
Definition a_number (o : obj) : bool := match o with OInt _ | OFloat _ => true | _ => false end.
(** Floats other than NaN, and integers. *)
Definition comparable (o : obj) : bool :=
  match o with OInt i => int32_rangeb i | OFloat f => valid_f32 f && negb (is_nan f) | _ => false end.
(** An integer that is compared with a float: exactly representable. *)
Definition exact_pair (a b : obj) : bool :=
  comparable a && comparable b &&
  match a, b with
  | OInt i, OFloat _ | OFloat _, OInt i => Z.abs i <? 2 ^ 24
  | _, _ => true
  end.

(** The published initialisation of the Mersenne Twister MT19937 (Matsumoto, Nishimura: init_genrand): as the
    code's, with words of uint32_t. *)
Fixpoint mt19937_words (n : nat) (i prev : Z) : list Z :=
  match n with
  | O => []
  | S m =>
      let w := (1812433253 * Z.lxor prev (Z.shiftr prev 30) + i) mod 2 ^ 32 in w :: mt19937_words m (i + 1) w
  end.
Definition mt19937_seeded (seed : Z) : mt := mkMt (seed :: mt19937_words 623 1 seed) 624.
