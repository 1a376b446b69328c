(** * ErrorSpec: what the error of a failed read says

    Vocabulary of C121. *)
From Coq Require Import Strings.String.
From Verif Require Import Base Serde Codec Universe.

(** [e] is an error about the content of a value of type [t] (and not about missing bytes). Only what is listed here can be wrong with
    the content: a bool or an option that starts with a byte other than 0 and 1, a string or a char that is not UTF-8, the index of an enum's
    variant, and the prefix of the key blob in an authentication payload. All other types accept every content. *)
Fixpoint wrong_content (t : ty) (e : error) : Prop :=
  match t with
  | TBool => e = EInvalidBool
  | TChar => e = EInvalidChar
  | TString => e = EInvalidUtf8
  | TOption t => e = EInvalidTag \/ wrong_content t e
  | TVec t => wrong_content t e
  | TEnum vs => e = ECustom "invalid value: variant index" \/ wrong_contents vs e
  | TStruct fs => wrong_contents fs e
  | TBinMember => e = ECustom "Received BinMemberAuthenticationPayload without LibNaclPK: prefix"
  | _ => False
  end
with wrong_contents (fs : tys) (e : error) : Prop :=
  match fs with
  | FNil => False
  | FCons t r => wrong_content t e \/ wrong_contents r e
  end.

(** The type contains a char. *)
Fixpoint has_char (t : ty) : bool :=
  match t with
  | TChar => true
  | TStruct fs | TEnum fs => have_char fs
  | TOption t | TVec t => has_char t
  | _ => false
  end
with have_char (fs : tys) : bool :=
  match fs with
  | FNil => false
  | FCons t r => has_char t || have_char r
  end.
