(** * EqualitySpec: vocabulary of C133 *)
From Verif Require Import Base Serde Codec Universe.
Open Scope N_scope.

(** Floating-point numbers occur in the type. *)
Fixpoint has_float (t : ty) : bool :=
  match t with
  | TF32 | TF64 => true
  | TStruct fs | TEnum fs => some_float fs
  | TOption t | TVec t => has_float t
  | _ => false
  end
with some_float (fs : tys) : bool :=
  match fs with
  | FNil => false
  | FCons t r => has_float t || some_float r
  end.

(** What a 32-bit or 64-bit number is not: exponent all ones, mantissa not zero (with or without the sign). *)
Definition nan32 (x : N) : Prop := 0x7f800000 < x <= 0x7fffffff \/ 0xff800000 < x <= 0xffffffff.
Definition nan64 (x : N) : Prop := 0x7ff0000000000000 < x <= 0x7fffffffffffffff \/ 0xfff0000000000000 < x <= 0xffffffffffffffff.

(** Some number in the value is not a number. *)
Fixpoint has_nan (t : ty) : tval t -> Prop :=
  match t with
  | TF32 => nan32
  | TF64 => nan64
  | TStruct fs => some_nan fs
  | TOption t => fun v => exists x, v = Some x /\ has_nan t x
  | TVec t => fun v => exists x, In x v /\ has_nan t x
  | TEnum vs => variant_nan vs
  | _ => fun _ => False
  end
with some_nan (fs : tys) : tvals fs -> Prop :=
  match fs with
  | FNil => fun _ => False
  | FCons t r => fun v => has_nan t (fst v) \/ some_nan r (snd v)
  end
with variant_nan (vs : tys) : talts vs -> Prop :=
  match vs with
  | FNil => fun _ => False
  | FCons t r => fun v => match v with inl x => has_nan t x | inr y => variant_nan r y end
  end.

(** The value with every negative zero (sign bit, nothing else) made positive. *)
Fixpoint positive_zeros (t : ty) : tval t -> tval t :=
  match t with
  | TF32 => fun x => if x =? 0x80000000 then 0 else x
  | TF64 => fun x => if x =? 0x8000000000000000 then 0 else x
  | TStruct fs => positive_zeross fs
  | TOption t => option_map (positive_zeros t)
  | TVec t => map (positive_zeros t)
  | TEnum vs => variant_positive_zeros vs
  | _ => fun v => v
  end
with positive_zeross (fs : tys) : tvals fs -> tvals fs :=
  match fs with
  | FNil => fun v => v
  | FCons t r => fun v => (positive_zeros t (fst v), positive_zeross r (snd v))
  end
with variant_positive_zeros (vs : tys) : talts vs -> talts vs :=
  match vs with
  | FNil => fun v => v
  | FCons t r => fun v =>
      match v with inl x => inl (positive_zeros t x) | inr y => inr (variant_positive_zeros r y) end
  end.
