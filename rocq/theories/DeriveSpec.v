(** * DeriveSpec: vocabulary of C126 and C127 *)
From Verif Require Import Base Serde Codec Universe Spec Packet Custom CustomSpec Derive.
Open Scope nat_scope.

(** What was read is written again, in as many bytes as were read. *)
Definition measured {A} (I : impl A) : Prop :=
  forall b x after, parse I b = Ok (x, after) ->
  exists used bytes, b = used ++ after /\ serializes I x bytes /\ length bytes = length used.

(** No byte string makes it panic. *)
Definition never_panics {A} (I : impl A) : Prop := forall b site, parse I b <> Panic site.

(** Every value that was read is read again from what is written for it, whatever follows. *)
Definition consistent {A} (I : impl A) : Prop := forall b x after, parse I b = Ok (x, after) -> fits I x.

(** All parts of a struct; the variant that was chosen. *)
Fixpoint all_fit (l : list part) : values l -> Prop :=
  match l with
  | [] => fun _ => True
  | p :: l => fun v => fits (part_impl p) (fst v) /\ all_fit l (snd v)
  end.
Fixpoint chosen_fits (l : list part) : choice l -> Prop :=
  match l with
  | [] => fun v => match v with end
  | p :: l => fun v => match v with inl x => fits (part_impl p) x | inr y => chosen_fits l y end
  end.
