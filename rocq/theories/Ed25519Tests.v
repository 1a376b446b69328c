(** * Ed25519Tests: the program of Ed25519.v on known data

    Tests, not theorems: each [Check] has the kernel's virtual machine compute both sides. They leave no
    constant behind, because the proof checker [coqchk], which has no virtual machine, would need hours for them. *)
From Coq Require Import Strings.String.
From Verif Require Import Base Codec Packet Sha512 Ed25519.
Open Scope Z_scope.

(** A packet recorded from py-ipv8 (tests/testpyipv8packets.rs, test_packet_2) verifies; with one bit of its
    payload changed it does not. *)
Definition recorded_packet : list byte := bs [
   0; 2; 185; 95; 161; 221; 207; 171; 191; 187; 161; 96; 240; 60; 68; 25; 173; 73; 171; 20; 227; 143; 249; 0;
   74; 76; 105; 98; 78; 97; 67; 76; 80; 75; 58; 81; 231; 18; 196; 235; 138; 194; 90; 227; 165; 104; 36; 8;
   178; 173; 189; 107; 120; 164; 37; 84; 127; 38; 133; 207; 223; 30; 233; 39; 12; 190; 126; 195; 54; 196; 22; 15;
   245; 114; 5; 76; 135; 120; 66; 190; 55; 115; 80; 69; 169; 59; 196; 226; 4; 21; 49; 111; 219; 20; 113; 97;
   162; 215; 70; 0; 0; 0; 0; 0; 0; 0; 3; 192; 168; 1; 75; 31; 154; 81; 171; 27; 194; 61; 247; 209;
   90; 210; 194; 207; 122; 121; 69; 68; 115; 21; 144; 198; 224; 1; 102; 72; 229; 188; 161; 226; 178; 71; 169; 147;
   157; 191; 199; 162; 150; 211; 66; 218; 208; 212; 74; 37; 184; 168; 156; 195; 225; 45; 70; 125; 73; 149; 56; 234;
   202; 236; 6; 242; 3; 11; 255; 168; 248; 6; 101; 212; 116; 59; 50; 176; 0]%N.
Definition verdict (p : list byte) : outcome bool :=
  snd (verify_embedded (ring_ed25519 (fun _ => None)) (fst (pop_header (start_deserialize (Packet p))))).
Check (@eq_refl (outcome bool) (Ok true) <: verdict recorded_packet = Ok true).
Check (@eq_refl (outcome bool) (Ok false)
       <: verdict (firstn 110 recorded_packet ++ [x00] ++ skipn 111 recorded_packet) = Ok false).

(** The key of the seed 0, 1, ..., 31 used in the crate's tests (community/peer.rs, crypto/signature.rs, serialization/mod.rs) *)
Definition test_seed : list byte := bs (map N.of_nat (seq 0 32)).
Definition test_public_key : list byte :=
  bs [3; 161; 7; 191; 243; 206; 16; 190; 29; 112; 221; 24; 231; 75; 192; 153; 103; 228;
      214; 48; 155; 165; 13; 95; 29; 220; 134; 100; 18; 85; 49; 184]%N.
Check (eq_refl test_public_key <: ed_public_key test_seed = test_public_key).

(** RFC 8032, 7.1, TEST 2 *)
Definition rfc_seed : list byte := be 32 0x4ccd089b28ff96da9db6c346ec114e0f5b8a319f35aba624da8cf6ed4fb8a6fb.
Definition rfc_public_key : list byte := be 32 0x3d4017c3e843895a92b70aa74d1b7ebc9c982ccf2ec4968cc0cd55f12af4660c.
Definition rfc_signature : list byte := be 64
  0x92a009a9f0d4cab8720e820b5f642540a2b27b5416503f8fb3762223ebdb69da085ac1e43e15996e458f3613d0f11d8c387b2eaeb4302aeeb00d291612bb0c00.
Check (eq_refl rfc_public_key <: ed_public_key rfc_seed = rfc_public_key).
Check (eq_refl rfc_signature <: ed_sign rfc_seed [x72] = rfc_signature).
(** S + L instead of S: the same group equation, rejected because S must be below L *)
Definition malleated : list byte := firstn 32 rfc_signature ++ le_bytes 32 (le_int (skipn 32 rfc_signature) + ed_L).
Check (eq_refl true <: ed_verify rfc_public_key [x72] rfc_signature = true).
Check (eq_refl false <: ed_verify rfc_public_key [x72] malleated = false).

(** SHA-512 of "abc" *)
Definition sha512_abc : list byte := be 64
  0xddaf35a193617abacc417349ae20413112e6fa4e89a97ea20a9eeee64b55d39a2192992a274fc1a836ba3c23a3feebbd454d4423643ce80e2a9ac94fa54ca49f.
Check (eq_refl sha512_abc <: sha512 (bs [97; 98; 99]%N) = sha512_abc).
