(** * Pkcs8Spec: key documents as RFC 5958 and RFC 8410 describe them

    Independent of Pkcs8.v: DER (X.690) is written, not read. *)
From Verif Require Import Base Spec EdSpec.
Open Scope nat_scope.

(** X.690, 8.1.3 and 10.1: the length octets of a content of [n] bytes, in the fewest possible bytes *)
Definition der_length (n : nat) : list byte :=
  if n <? 128 then [byte_of_N (N.of_nat n)]
  else if n <? 256 then [x81; byte_of_N (N.of_nat n)]
  else [x82; byte_of_N (N.of_nat (n / 256)); byte_of_N (N.of_nat (n mod 256))].
(** an element with a one-byte tag *)
Definition der (tag : byte) (content : list byte) : list byte := tag :: der_length (length content) ++ content.

(** RFC 5958, section 2, and RFC 8410, section 7:
    SEQUENCE { INTEGER 1, SEQUENCE { OBJECT IDENTIFIER 1.3.101.112 }, OCTET STRING { OCTET STRING seed },
    attributes, [1] { BIT STRING key } } *)
Definition document_content (seed attributes key : list byte) : list byte :=
  der x02 [x01] ++ der x30 (der x06 [x2b; x65; x70]) ++ der x04 (der x04 seed) ++ attributes ++
  der xa1 (der x03 (x00 :: key)).
Definition document (seed attributes key : list byte) : list byte := der x30 (document_content seed attributes key).
(** attributes: nothing, or one element [0] with any content *)
Definition is_attributes (b : list byte) : Prop := b = [] \/ exists content, b = der xa0 content.
(** RFC 8410, section 7, the older form: version 0 and no public key *)
Definition document_v1 (seed : list byte) : list byte :=
  der x30 (der x02 [x00] ++ der x30 (der x06 [x2b; x65; x70]) ++ der x04 (der x04 seed)).
