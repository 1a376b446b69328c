(** * RecursiveSpec: what C140 says, independently of the model's helpers *)
From Coq Require Import Strings.String.
From Verif Require Import Base Serde Codec Universe Spec Recursive.
Open Scope nat_scope.

(** Which bytes stand for which value of a type *)
Inductive encodes (D : types) : rty -> rval -> list byte -> Prop :=
| enc_base t v :
    self_delimiting t = true -> in_range t v -> encodable t v -> transmitted t v = v ->
    encodes D (RBase t) (VBase t v) (layout t v)
| enc_struct fs vs b : encodes_fields D fs vs b -> encodes D (RStruct fs) (VStruct vs) b
| enc_none t : encodes D (ROption t) VNone [x00]
| enc_some t v b : encodes D t v b -> encodes D (ROption t) (VSome v) (x01 :: b)
| enc_vec t l b :
    encodes_elements D t l b -> (N.of_nat (length l) < 2 ^ 64)%N ->
    encodes D (RVec t) (VVec l) (u64_bytes (N.of_nat (length l)) ++ b)
| enc_variant vs i v b :
    encodes_variant D vs i v b -> (i < 2 ^ 32)%N -> encodes D (REnum vs) (VVariant i v) (u32_bytes i ++ b)
| enc_box i v b : encodes D (D i) v b -> encodes D (RBox i) (VBox v) b
with encodes_fields (D : types) : rtys -> list rval -> list byte -> Prop :=
| encf_nil : encodes_fields D RNil [] []
| encf_cons t fs v vs b c :
    encodes D t v b -> encodes_fields D fs vs c -> encodes_fields D (RCons t fs) (v :: vs) (b ++ c)
with encodes_elements (D : types) : rty -> list rval -> list byte -> Prop :=
| ence_nil t : encodes_elements D t [] []
| ence_cons t v l b c :
    encodes D t v b -> encodes_elements D t l c -> encodes_elements D t (v :: l) (b ++ c)
with encodes_variant (D : types) : rtys -> N -> rval -> list byte -> Prop :=
| encv_here t vs v b : encodes D t v b -> encodes_variant D (RCons t vs) 0 v b
| encv_later t vs i v b : encodes_variant D vs i v b -> encodes_variant D (RCons t vs) (N.succ i) v b.

(** How deep a value is nested *)
Fixpoint depth (v : rval) : nat :=
  match v with
  | VBase _ _ | VNone => 1
  | VSome v | VVariant _ v | VBox v => S (depth v)
  | VStruct l | VVec l => S (list_max (map depth l))
  end.

(** How deep a type is written down, with the program's own types as leaves *)
Fixpoint height (t : rty) : nat :=
  match t with
  | RBase _ | RBox _ => 1
  | ROption t | RVec t => S (height t)
  | RStruct fs | REnum fs => S (heights fs)
  end
with heights (fs : rtys) : nat := match fs with RNil => 0 | RCons t r => Nat.max (height t) (heights r) end.

(** A type without other types' names as a type of Universe.v, and the values of that *)
Fixpoint flatten (t : rty) : ty :=
  match t with
  | RBase t => t
  | RStruct fs => TStruct (flattens fs)
  | ROption t => TOption (flatten t)
  | RVec t => TVec (flatten t)
  | REnum vs => TEnum (flattens vs)
  | RBox _ => TStruct FNil
  end
with flattens (fs : rtys) : tys := match fs with RNil => FNil | RCons t r => FCons (flatten t) (flattens r) end.
Fixpoint value (t : rty) : tval (flatten t) -> rval :=
  match t with
  | RBase t => VBase t
  | RStruct fs => fun v => VStruct (field_values fs v)
  | ROption t => fun v => match v with Some x => VSome (value t x) | None => VNone end
  | RVec t => fun v => VVec (map (value t) v)
  | REnum vs => fun v => let (i, x) := variant_value vs v in VVariant i x
  | RBox _ => fun _ => VNone
  end
with field_values (fs : rtys) : tvals (flattens fs) -> list rval :=
  match fs with
  | RNil => fun _ => []
  | RCons t r => fun v => value t (fst v) :: field_values r (snd v)
  end
with variant_value (vs : rtys) : talts (flattens vs) -> N * rval :=
  match vs with
  | RNil => fun v => match v with end
  | RCons t r => fun v => match v with inl x => (0%N, value t x) | inr y => let (i, x) := variant_value r y in (N.succ i, x) end
  end.

(** No other type's name occurs. *)
Fixpoint closed (t : rty) : bool :=
  match t with
  | RBase _ => true
  | RBox _ => false
  | ROption t | RVec t => closed t
  | RStruct fs | REnum fs => all_closed fs
  end
with all_closed (fs : rtys) : bool := match fs with RNil => true | RCons t r => closed t && all_closed r end.

(** Another type's name occurs only inside an option, a vector or an enum, of which a byte at least has been read by then. *)
Fixpoint guarded (t : rty) : bool :=
  match t with
  | RBase _ | ROption _ | RVec _ | REnum _ => true
  | RBox _ => false
  | RStruct fs => all_guarded fs
  end
with all_guarded (fs : rtys) : bool := match fs with RNil => true | RCons t r => guarded t && all_guarded r end.

(** No field is a [BinMemberAuthenticationPayload] (whose reading can panic, C23). *)
Fixpoint plain (t : rty) : bool :=
  match t with
  | RBase t => negb (has_auth t)
  | RBox _ => true
  | ROption t | RVec t => plain t
  | RStruct fs | REnum fs => all_plain fs
  end
with all_plain (fs : rtys) : bool := match fs with RNil => true | RCons t r => plain t && all_plain r end.

(** [struct Chain { next: Option<Box<Chain>> }] *)
Definition chain : types := fun _ => RStruct (RCons (ROption (RBox 0)) RNil).
(** [struct Comment { text: VarLen16, replies: Vec<Box<Comment>> }] *)
Definition comment : types := fun _ => RStruct (RCons (RBase TVarLen16) (RCons (RVec (RBox 0)) RNil)).
(** [struct Endless { next: Box<Endless> }] *)
Definition endless : types := fun _ => RStruct (RCons (RBox 0) RNil).
