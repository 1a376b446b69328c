(** * RepoTests: the unit and integration tests of /repo, replayed on the model

    Nothing here is a property: these examples check that the model computes what the repository's own tests
    observe of the real program (the tests themselves are not run). [Packet::verify] needs Ed25519, which the model takes as a
    parameter: the instance used here accepts every signature, and the point of the replay is everything
    around the signature check (which bytes are key, message, signature and payload). *)
From Coq Require Import Strings.String.
From Verif Require Import Base Serde Codec Universe Packet Sha1 Community Network Ipv8 PyBinding.
Open Scope N_scope.

Definition accepting : ed25519 := {|
  ring_keypair := unit;
  ring_public_key := fun _ => repeat x00 32;
  ring_sign := fun _ _ => repeat x00 64;
  ring_verify := fun _ _ _ => true;
  ring_from_seed_unchecked := fun _ => Some tt;
  ring_from_seed_and_public_key := fun _ _ => Some tt;
  ring_from_pkcs8 := fun _ => Some tt |}.

Definition ip4 (a b c d port : N) : address := V4 (byte_of_N a) (byte_of_N b) (byte_of_N c) (byte_of_N d) port.

(** [create_test_header!] (serialization/header.rs:211-222) *)
Definition test_header : header :=
  {| h_size := 23; h_version := PyIPV8Header; h_mid_hash := Some (repeat x00 20); h_message_type := Some 42 |}.
Definition test_bytes : list byte := bs ([0; 2] ++ repeat 0 20 ++ [42]).

(** Bytes of [Packet::new(create_test_header!())] after adding a payload; and the value read back from it. *)
Definition written (t : ty) (v : tval t) : outcome (list byte) :=
  let* p := packet_new test_header in
  let '(p', r) := packet_add t p v in
  let* _ := r in Ok (packet_raw p').
Definition read_back (t : ty) (v : tval t) : outcome (tval t) :=
  let* p := packet_new test_header in
  let '(p', r) := packet_add t p v in
  let* _ := r in
  let* d := skip_header (start_deserialize p') in
  snd (next_payload t d).

(** serialization/varlen.rs:151-275 *)
Example test_serialize_varlen16 :
  written TVarLen16 (VarLen16 (bs [1;2;3;4;5;6;7;8;9;10])) = Ok (test_bytes ++ bs [0;10;1;2;3;4;5;6;7;8;9;10]).
Proof. vm_compute. reflexivity. Qed.
Example test_deserialize_varlen16 :
  read_back TVarLen16 (VarLen16 (bs [1;2;3;4;5;6;7;8;9;10])) = Ok (VarLen16 (bs [1;2;3;4;5;6;7;8;9;10])).
Proof. vm_compute. reflexivity. Qed.
Example test_serialize_varlen32 :
  written TVarLen32 (VarLen32 (bs [1;2;3;4;5;6;7;8;9;10])) = Ok (test_bytes ++ bs [0;0;0;10;1;2;3;4;5;6;7;8;9;10]).
Proof. vm_compute. reflexivity. Qed.
Example test_deserialize_varlen32 :
  read_back TVarLen32 (VarLen32 (bs [1;2;3;4;5;6;7;8;9;10])) = Ok (VarLen32 (bs [1;2;3;4;5;6;7;8;9;10])).
Proof. vm_compute. reflexivity. Qed.
Example test_varlen16_too_large :
  is_err (written TVarLen16 (VarLen16 (repeat x00 (N.to_nat (N.shiftl 1 17))))) = true.
Proof. vm_compute. reflexivity. Qed.
Example test_serialize_varlen16_zero : written TVarLen16 (VarLen16 []) = Ok (test_bytes ++ bs [0;0]).
Proof. vm_compute. reflexivity. Qed.

(** serialization/rawend.rs:55-108: a struct with one [RawEnd] field *)
Example test_serialize_rawend :
  written (TStruct (FCons TRawEnd FNil)) (RawEnd (bs [42;43]), tt) = Ok (test_bytes ++ bs [42;43]).
Proof. vm_compute. reflexivity. Qed.
Example test_deserialize_rawend :
  read_back (TStruct (FCons TRawEnd FNil)) (RawEnd (bs [42;43]), tt) = Ok (RawEnd (bs [42;43]), tt).
Proof. vm_compute. reflexivity. Qed.

(** serialization/nestedpayload.rs:93-159 *)
Definition inner_u16 : packet := Packet (test_bytes ++ bs [0;10]).
Example nested_inner : written (TStruct (FCons TU16 FNil)) (10, tt) = Ok (packet_raw inner_u16).
Proof. vm_compute. reflexivity. Qed.
Example nested_creation :
  read_back (TStruct (FCons TNested FNil)) (NestedPacket inner_u16, tt) = Ok (NestedPacket inner_u16, tt).
Proof. vm_compute. reflexivity. Qed.
Example nested_empty :
  written (TStruct FNil) tt = Ok test_bytes /\
  read_back (TStruct (FCons TNested FNil)) (NestedPacket (Packet test_bytes), tt)
  = Ok (NestedPacket (Packet test_bytes), tt).
Proof. vm_compute. split; reflexivity. Qed.
Example nested_too_large :
  is_err (let* p := written (TStruct (FCons TVecU8 FNil)) (repeat x00 (N.to_nat (N.shiftl 1 17)), tt) in
          written (TStruct (FCons TNested FNil)) (NestedPacket (Packet p), tt)) = true /\
  is_ok (written (TStruct (FCons TVecU8 FNil)) (repeat x00 (N.to_nat (N.shiftl 1 17)), tt)) = true.
Proof. vm_compute. split; reflexivity. Qed.

(** serialization/header.rs:224-247 *)
Example header_creation :
  let h := py_ipv8_header (bs [0;1;2;3;4;5;6;7;8;9;10;11;12;13;14;15;16;17;18;19]) (byte_of_N 42) in
  (let* b := bincode_serialize (ser_header h) in let* (r, _) := de_header b in Ok r) = Ok h.
Proof. vm_compute. reflexivity. Qed.

(** serialization/mod.rs:249-353 *)
Example test_raw : (let* p := packet_new test_header in Ok (packet_raw p)) = Ok test_bytes.
Proof. vm_compute. reflexivity. Qed.
Example test_sign_verify_ed25519 :
  (let* p := packet_new test_header in
   let '(p', _) := packet_add (TStruct (FCons TU16 FNil)) p (42, tt) in
   let* signed := packet_sign (C := accepting) p' tt in
   snd (verify_with accepting (repeat x00 32) (start_deserialize signed))) = Ok true.
Proof. vm_compute. reflexivity. Qed.
Definition multiple : packet :=
  Packet (test_bytes ++ bs [0; 42; 0; 0; 0; 43; 0; 44]).
Example test_serialize_multiple :
  (let* p := packet_new test_header in
   let '(p1, _) := packet_add (TStruct (FCons TU16 FNil)) p (42, tt) in
   let '(p2, _) := packet_add (TStruct (FCons TU32 FNil)) p1 (43, tt) in
   let '(p3, _) := packet_add (TStruct (FCons TU16 FNil)) p2 (44, tt) in
   Ok p3) = Ok multiple.
Proof. vm_compute. reflexivity. Qed.
Example test_deserialize_multiple_more :
  exists d,
    skip_header (start_deserialize multiple) = Ok d /\
    let '(d1, a) := next_payload (TStruct (FCons TU16 FNil)) d in
    let '(d2, b) := next_payload (TStruct (FCons TU32 FNil)) d1 in
    let '(d3, c) := next_payload (TStruct (FCons TU16 FNil)) d2 in
    a = Ok (42, tt) /\ b = Ok (43, tt) /\ c = Ok (44, tt) /\
    is_err (snd (next_payload (TStruct (FCons TU16 FNil)) d3)) = true.
Proof. eexists. split; [vm_compute; reflexivity | vm_compute; repeat split]. Qed.

(** payloads/introductionrequestpayload.rs:113-162 *)
Definition test_intro_request : introduction_request :=
  IntroductionRequest (ip4 127 0 0 1 8000) (ip4 42 42 42 42 8000) (ip4 255 255 255 0 8000)
    true (ct_decode (true, true)) 42 (RawEnd (bs [43; 44])).
Example intro_request_creation :
  written TIntroductionRequest test_intro_request
  = Ok (test_bytes ++ bs [127; 0; 0; 1; 31; 64; 42; 42; 42; 42; 31; 64; 255; 255; 255; 0; 31; 64; 131; 0; 42; 43; 44]) /\
  read_back TIntroductionRequest test_intro_request = Ok test_intro_request.
Proof. vm_compute. split; reflexivity. Qed.

(** payloads/introductionresponsepayload.rs:126-207: [tunnel] changes from true to false *)
Definition test_intro_response (tunnel : bool) : introduction_response :=
  IntroductionResponse (ip4 127 0 0 1 8000) (ip4 42 42 42 42 8000) (ip4 255 255 255 0 8000)
    (ip4 43 43 43 43 8000) (ip4 4 44 44 44 8000)
    tunnel (ct_decode (true, true)) 42 (RawEnd (bs [43; 44])).
Example intro_response_creation :
  written TIntroductionResponse (test_intro_response true)
  = Ok (test_bytes ++ bs [127; 0; 0; 1; 31; 64; 42; 42; 42; 42; 31; 64; 255; 255; 255; 0; 31; 64; 43; 43; 43; 43; 31; 64;
                          4; 44; 44; 44; 31; 64; 3; 0; 42; 43; 44]) /\
  read_back TIntroductionResponse (test_intro_response true) = Ok (test_intro_response false).
Proof. vm_compute. split; reflexivity. Qed.

(** payloads/binmemberauthenticationpayload.rs:105-132 *)
Definition test_key : list byte :=
  bs [3; 161; 7; 191; 243; 206; 16; 190; 29; 112; 221; 24; 231; 75; 192; 153; 103; 228;
      214; 48; 155; 165; 13; 95; 29; 220; 134; 100; 18; 85; 49; 184].
Example bin_member_creation :
  read_back TBinMember {| bm_encryption_key_bin := test_key; bm_public_key_bin := test_key |}
  = Ok {| bm_encryption_key_bin := test_key; bm_public_key_bin := test_key |}.
Proof. vm_compute. reflexivity. Qed.

(** community/mod.rs:243-321 and tests/ipv8-community.rs: the id is the SHA-1 of the test key (that key is
    the Ed25519 public key of the seed 0, 1, ..., 31 used in the tests) *)
Definition test_community : community :=
  let mid := get_sha1 (peer_new test_key (ip4 42 42 42 42 8000) true) in {|
  c_tag := 0; c_mid := mid;
  c_on_receive := fun h _ _ =>
    match h_mid_hash h, h_message_type h with
    | Some m, Some 42 => if bytes_eqb m mid then Ok tt else Panic (PUser 0)
    | _, _ => Panic (PUser 0)
    end |}.
Definition to_test_community (t : N) : outcome packet :=
  packet_new {| h_size := 23; h_version := PyIPV8Header;
                h_mid_hash := Some (c_mid test_community); h_message_type := Some t |}.
Example test_deprecated :
  forallb (fun t =>
    match to_test_community t with
    | Ok p =>
        match peek_header (start_deserialize p) with
        | Ok h =>
            match receive test_community h (start_deserialize p) (ip4 127 0 0 1 0) with
            | ([Warned _ _], Ok _) => true
            | _ => false
            end
        | _ => false
        end
    | _ => false
    end)
    [255; 254; 253; 252; 251; 248; 247; 244; 243; 242; 241; 240; 239; 238; 237; 236; 235] = true.
Proof. vm_compute. reflexivity. Qed.
Example test_networking :
  match to_test_community 42 with
  | Ok p =>
      let '(effects, result) :=
        forward_message (fst (add_community registry_default test_community)) p (ip4 42 42 42 42 42) in
      length effects = 1%nat /\ result = Ok tt
  | _ => False
  end.
Proof. vm_compute. split; reflexivity. Qed.

(** ** tests/testpyipv8packets.rs: packets recorded from py-ipv8 *)

(** The common shape of these tests: [pop_header], [verify], a time payload, then one more payload. *)
Definition pyipv8_test (t : ty) (data : list byte) (h : header) (time : N) (v : tval t) : Prop :=
  let d := start_deserialize (Packet data) in
  let '(d1, rh) := pop_header d in
  let '(d2, valid) := verify_embedded accepting d1 in
  let '(d3, rt) := next_payload TTime d2 in
  let '(d4, rv) := next_payload t d3 in
  rh = Ok h /\ valid = Ok true /\ rt = Ok (TimeDistribution time) /\ rv = Ok v /\
  index d4 = length (packet_raw (pntr d4)).

(** [test_packet_1] (testpyipv8packets.rs:13) *)
Example test_packet_1 : pyipv8_test TIntroductionResponse (bs [
   0; 2; 186; 243; 14; 217; 25; 43; 163; 84; 205; 215; 177; 115; 224; 239; 44; 50; 128; 39;
   241; 211; 245; 0; 74; 76; 105; 98; 78; 97; 67; 76; 80; 75; 58; 81; 231; 18; 196; 235;
   138; 194; 90; 227; 165; 104; 36; 8; 178; 173; 189; 107; 120; 164; 37; 84; 127; 38; 133; 207;
   223; 30; 233; 39; 12; 190; 126; 195; 54; 196; 22; 15; 245; 114; 5; 76; 135; 120; 66; 190;
   55; 115; 80; 69; 169; 59; 196; 226; 4; 21; 49; 111; 219; 20; 113; 97; 162; 215; 70; 0;
   0; 0; 0; 0; 0; 0; 1; 81; 171; 27; 194; 43; 103; 192; 168; 1; 75; 31; 154; 192;
   168; 1; 75; 31; 154; 0; 0; 0; 0; 0; 0; 0; 0; 0; 0; 0; 0; 0; 210; 14;
   0; 0; 0; 0; 206; 233; 50; 107; 157; 212; 187; 138; 175; 141; 192; 57; 40; 142; 191; 194;
   74; 16; 173; 195; 122; 241; 217; 200; 4; 23; 114; 93; 45; 62; 94; 7; 82; 77; 171; 110;
   167; 27; 23; 90; 119; 93; 181; 216; 145; 12; 43; 75; 200; 187; 3; 211; 85; 237; 16; 38;
   221; 187; 216; 178; 59; 253; 252; 1])
  (py_ipv8_header (bs [186; 243; 14; 217; 25; 43; 163; 84; 205; 215; 177; 115; 224; 239; 44; 50; 128; 39; 241; 211]) (byte_of_N 245))
  1 (IntroductionResponse (ip4 81 171 27 194 11111) (ip4 192 168 1 75 8090) (ip4 192 168 1 75 8090) (ip4 0 0 0 0 0) (ip4 0 0 0 0 0) false UNKNOWN 53774 (RawEnd (bs [0; 0; 0; 0]))).
Proof. vm_compute. repeat split. Qed.

(** [test_packet_2] (testpyipv8packets.rs:84) *)
Example test_packet_2 : pyipv8_test TPunctureRequest (bs [
   0; 2; 185; 95; 161; 221; 207; 171; 191; 187; 161; 96; 240; 60; 68; 25; 173; 73; 171; 20;
   227; 143; 249; 0; 74; 76; 105; 98; 78; 97; 67; 76; 80; 75; 58; 81; 231; 18; 196; 235;
   138; 194; 90; 227; 165; 104; 36; 8; 178; 173; 189; 107; 120; 164; 37; 84; 127; 38; 133; 207;
   223; 30; 233; 39; 12; 190; 126; 195; 54; 196; 22; 15; 245; 114; 5; 76; 135; 120; 66; 190;
   55; 115; 80; 69; 169; 59; 196; 226; 4; 21; 49; 111; 219; 20; 113; 97; 162; 215; 70; 0;
   0; 0; 0; 0; 0; 0; 3; 192; 168; 1; 75; 31; 154; 81; 171; 27; 194; 61; 247; 209;
   90; 210; 194; 207; 122; 121; 69; 68; 115; 21; 144; 198; 224; 1; 102; 72; 229; 188; 161; 226;
   178; 71; 169; 147; 157; 191; 199; 162; 150; 211; 66; 218; 208; 212; 74; 37; 184; 168; 156; 195;
   225; 45; 70; 125; 73; 149; 56; 234; 202; 236; 6; 242; 3; 11; 255; 168; 248; 6; 101; 212;
   116; 59; 50; 176; 0])
  (py_ipv8_header (bs [185; 95; 161; 221; 207; 171; 191; 187; 161; 96; 240; 60; 68; 25; 173; 73; 171; 20; 227; 143]) (byte_of_N 249))
  3 (PunctureRequest (ip4 192 168 1 75 8090) (ip4 81 171 27 194 15863) 53594).
Proof. vm_compute. repeat split. Qed.

(** [test_packet_3] (testpyipv8packets.rs:139) *)
Example test_packet_3 : pyipv8_test TPunctureRequest (bs [
   0; 2; 185; 95; 161; 221; 207; 171; 191; 187; 161; 96; 240; 60; 68; 25; 173; 73; 171; 20;
   227; 143; 249; 0; 74; 76; 105; 98; 78; 97; 67; 76; 80; 75; 58; 81; 231; 18; 196; 235;
   138; 194; 90; 227; 165; 104; 36; 8; 178; 173; 189; 107; 120; 164; 37; 84; 127; 38; 133; 207;
   223; 30; 233; 39; 12; 190; 126; 195; 54; 196; 22; 15; 245; 114; 5; 76; 135; 120; 66; 190;
   55; 115; 80; 69; 169; 59; 196; 226; 4; 21; 49; 111; 219; 20; 113; 97; 162; 215; 70; 0;
   0; 0; 0; 0; 0; 0; 4; 192; 168; 1; 75; 31; 154; 81; 171; 27; 194; 61; 247; 76;
   52; 135; 153; 29; 165; 107; 9; 165; 88; 202; 171; 40; 38; 4; 157; 92; 227; 197; 182; 207;
   221; 174; 12; 18; 114; 165; 31; 99; 32; 61; 116; 17; 227; 146; 185; 78; 210; 131; 187; 13;
   89; 111; 226; 222; 178; 6; 97; 136; 209; 182; 163; 92; 146; 175; 20; 177; 55; 65; 198; 23;
   63; 30; 124; 199; 2])
  (py_ipv8_header (bs [185; 95; 161; 221; 207; 171; 191; 187; 161; 96; 240; 60; 68; 25; 173; 73; 171; 20; 227; 143]) (byte_of_N 249))
  4 (PunctureRequest (ip4 192 168 1 75 8090) (ip4 81 171 27 194 15863) 19508).
Proof. vm_compute. repeat split. Qed.

(** [test_packet_4] (testpyipv8packets.rs:193) *)
Example test_packet_4 : pyipv8_test TPunctureRequest (bs [
   0; 2; 185; 95; 161; 221; 207; 171; 191; 187; 161; 96; 240; 60; 68; 25; 173; 73; 171; 20;
   227; 143; 249; 0; 74; 76; 105; 98; 78; 97; 67; 76; 80; 75; 58; 81; 231; 18; 196; 235;
   138; 194; 90; 227; 165; 104; 36; 8; 178; 173; 189; 107; 120; 164; 37; 84; 127; 38; 133; 207;
   223; 30; 233; 39; 12; 190; 126; 195; 54; 196; 22; 15; 245; 114; 5; 76; 135; 120; 66; 190;
   55; 115; 80; 69; 169; 59; 196; 226; 4; 21; 49; 111; 219; 20; 113; 97; 162; 215; 70; 0;
   0; 0; 0; 0; 0; 0; 7; 192; 168; 1; 75; 31; 154; 81; 171; 27; 194; 61; 247; 165;
   114; 156; 91; 237; 140; 96; 246; 43; 63; 23; 231; 167; 150; 181; 194; 213; 43; 197; 176; 17;
   134; 35; 207; 50; 227; 145; 0; 165; 59; 195; 253; 64; 140; 20; 231; 54; 144; 35; 254; 202;
   7; 181; 222; 255; 248; 0; 177; 32; 93; 61; 249; 192; 45; 117; 207; 76; 49; 187; 65; 132;
   47; 207; 106; 220; 5])
  (py_ipv8_header (bs [185; 95; 161; 221; 207; 171; 191; 187; 161; 96; 240; 60; 68; 25; 173; 73; 171; 20; 227; 143]) (byte_of_N 249))
  7 (PunctureRequest (ip4 192 168 1 75 8090) (ip4 81 171 27 194 15863) 42354).
Proof. vm_compute. repeat split. Qed.

(** [test_packet_5] (testpyipv8packets.rs:248) *)
Example test_packet_5 : pyipv8_test TPunctureRequest (bs [
   0; 2; 185; 95; 161; 221; 207; 171; 191; 187; 161; 96; 240; 60; 68; 25; 173; 73; 171; 20;
   227; 143; 249; 0; 74; 76; 105; 98; 78; 97; 67; 76; 80; 75; 58; 81; 231; 18; 196; 235;
   138; 194; 90; 227; 165; 104; 36; 8; 178; 173; 189; 107; 120; 164; 37; 84; 127; 38; 133; 207;
   223; 30; 233; 39; 12; 190; 126; 195; 54; 196; 22; 15; 245; 114; 5; 76; 135; 120; 66; 190;
   55; 115; 80; 69; 169; 59; 196; 226; 4; 21; 49; 111; 219; 20; 113; 97; 162; 215; 70; 0;
   0; 0; 0; 0; 0; 0; 8; 192; 168; 1; 75; 31; 154; 81; 171; 27; 194; 194; 203; 240;
   225; 194; 233; 1; 130; 62; 212; 204; 12; 131; 230; 35; 194; 41; 134; 151; 128; 24; 173; 91;
   169; 103; 158; 100; 96; 58; 232; 2; 43; 45; 120; 37; 211; 115; 201; 239; 231; 162; 206; 23;
   226; 40; 106; 56; 64; 42; 221; 165; 247; 224; 140; 114; 163; 180; 152; 164; 130; 108; 138; 79;
   195; 252; 145; 199; 3])
  (py_ipv8_header (bs [185; 95; 161; 221; 207; 171; 191; 187; 161; 96; 240; 60; 68; 25; 173; 73; 171; 20; 227; 143]) (byte_of_N 249))
  8 (PunctureRequest (ip4 192 168 1 75 8090) (ip4 81 171 27 194 49867) 61665).
Proof. vm_compute. repeat split. Qed.

(** [test_packet_6] (testpyipv8packets.rs:303) *)
Example test_packet_6 : pyipv8_test TPunctureRequest (bs [
   0; 2; 180; 44; 147; 209; 103; 160; 252; 74; 8; 67; 249; 23; 212; 191; 30; 158; 187; 52;
   14; 196; 249; 0; 74; 76; 105; 98; 78; 97; 67; 76; 80; 75; 58; 81; 231; 18; 196; 235;
   138; 194; 90; 227; 165; 104; 36; 8; 178; 173; 189; 107; 120; 164; 37; 84; 127; 38; 133; 207;
   223; 30; 233; 39; 12; 190; 126; 195; 54; 196; 22; 15; 245; 114; 5; 76; 135; 120; 66; 190;
   55; 115; 80; 69; 169; 59; 196; 226; 4; 21; 49; 111; 219; 20; 113; 97; 162; 215; 70; 0;
   0; 0; 0; 0; 0; 0; 14; 192; 168; 1; 75; 31; 154; 81; 171; 27; 194; 43; 103; 210;
   23; 184; 39; 246; 117; 131; 127; 78; 206; 160; 42; 150; 7; 222; 152; 2; 148; 11; 14; 111;
   149; 107; 165; 214; 225; 21; 50; 122; 209; 32; 64; 131; 223; 167; 245; 201; 244; 153; 24; 129;
   131; 11; 7; 192; 18; 32; 133; 109; 61; 103; 127; 82; 147; 237; 225; 3; 141; 49; 52; 171;
   224; 80; 170; 239; 7])
  (py_ipv8_header (bs [180; 44; 147; 209; 103; 160; 252; 74; 8; 67; 249; 23; 212; 191; 30; 158; 187; 52; 14; 196]) (byte_of_N 249))
  14 (PunctureRequest (ip4 192 168 1 75 8090) (ip4 81 171 27 194 11111) 53783).
Proof. vm_compute. repeat split. Qed.

(** [test_packet_7] (testpyipv8packets.rs:358) *)
Example test_packet_7 : pyipv8_test TPunctureRequest (bs [
   0; 2; 185; 95; 161; 221; 207; 171; 191; 187; 161; 96; 240; 60; 68; 25; 173; 73; 171; 20;
   227; 143; 249; 0; 74; 76; 105; 98; 78; 97; 67; 76; 80; 75; 58; 81; 231; 18; 196; 235;
   138; 194; 90; 227; 165; 104; 36; 8; 178; 173; 189; 107; 120; 164; 37; 84; 127; 38; 133; 207;
   223; 30; 233; 39; 12; 190; 126; 195; 54; 196; 22; 15; 245; 114; 5; 76; 135; 120; 66; 190;
   55; 115; 80; 69; 169; 59; 196; 226; 4; 21; 49; 111; 219; 20; 113; 97; 162; 215; 70; 0;
   0; 0; 0; 0; 0; 0; 15; 192; 168; 1; 75; 31; 154; 73; 145; 138; 233; 30; 79; 255;
   166; 104; 128; 231; 116; 207; 133; 118; 230; 255; 89; 123; 240; 236; 129; 64; 67; 99; 52; 94;
   255; 88; 83; 112; 101; 160; 221; 62; 52; 223; 114; 132; 255; 130; 18; 45; 91; 134; 160; 251;
   166; 249; 8; 101; 110; 114; 124; 30; 174; 28; 31; 245; 87; 13; 4; 94; 252; 79; 227; 30;
   169; 19; 152; 8; 11])
  (py_ipv8_header (bs [185; 95; 161; 221; 207; 171; 191; 187; 161; 96; 240; 60; 68; 25; 173; 73; 171; 20; 227; 143]) (byte_of_N 249))
  15 (PunctureRequest (ip4 192 168 1 75 8090) (ip4 73 145 138 233 7759) 65446).
Proof. vm_compute. repeat split. Qed.

(** [test_packet_8] (testpyipv8packets.rs:413) *)
Example test_packet_8 : pyipv8_test TIntroductionResponse (bs [
   0; 2; 185; 95; 161; 221; 207; 171; 191; 187; 161; 96; 240; 60; 68; 25; 173; 73; 171; 20;
   227; 143; 245; 0; 74; 76; 105; 98; 78; 97; 67; 76; 80; 75; 58; 81; 231; 18; 196; 235;
   138; 194; 90; 227; 165; 104; 36; 8; 178; 173; 189; 107; 120; 164; 37; 84; 127; 38; 133; 207;
   223; 30; 233; 39; 12; 190; 126; 195; 54; 196; 22; 15; 245; 114; 5; 76; 135; 120; 66; 190;
   55; 115; 80; 69; 169; 59; 196; 226; 4; 21; 49; 111; 219; 20; 113; 97; 162; 215; 70; 0;
   0; 0; 0; 0; 0; 0; 11; 192; 168; 1; 75; 30; 79; 192; 168; 1; 75; 31; 154; 192;
   168; 1; 75; 31; 154; 0; 0; 0; 0; 0; 0; 0; 0; 0; 0; 0; 0; 0; 21; 189;
   79; 233; 85; 58; 43; 121; 152; 76; 192; 212; 238; 110; 142; 173; 157; 254; 32; 213; 189; 238;
   40; 7; 229; 47; 131; 155; 74; 187; 176; 30; 179; 165; 56; 24; 206; 186; 40; 15; 166; 107;
   163; 1; 89; 245; 150; 109; 75; 168; 215; 148; 134; 120; 74; 79; 176; 193; 179; 83; 146; 31;
   88; 182; 129; 13])
  (py_ipv8_header (bs [185; 95; 161; 221; 207; 171; 191; 187; 161; 96; 240; 60; 68; 25; 173; 73; 171; 20; 227; 143]) (byte_of_N 245))
  11 (IntroductionResponse (ip4 192 168 1 75 7759) (ip4 192 168 1 75 8090) (ip4 192 168 1 75 8090) (ip4 0 0 0 0 0) (ip4 0 0 0 0 0) false UNKNOWN 5565 (RawEnd (bs []))).
Proof. vm_compute. repeat split. Qed.

(** [test_packet_9] (testpyipv8packets.rs:485) *)
Example test_packet_9 : pyipv8_test TIntroductionResponse (bs [
   0; 2; 185; 95; 161; 221; 207; 171; 191; 187; 161; 96; 240; 60; 68; 25; 173; 73; 171; 20;
   227; 143; 245; 0; 74; 76; 105; 98; 78; 97; 67; 76; 80; 75; 58; 81; 231; 18; 196; 235;
   138; 194; 90; 227; 165; 104; 36; 8; 178; 173; 189; 107; 120; 164; 37; 84; 127; 38; 133; 207;
   223; 30; 233; 39; 12; 190; 126; 195; 54; 196; 22; 15; 245; 114; 5; 76; 135; 120; 66; 190;
   55; 115; 80; 69; 169; 59; 196; 226; 4; 21; 49; 111; 219; 20; 113; 97; 162; 215; 70; 0;
   0; 0; 0; 0; 0; 0; 12; 81; 171; 27; 194; 61; 247; 192; 168; 1; 75; 31; 154; 192;
   168; 1; 75; 31; 154; 192; 168; 1; 75; 30; 79; 192; 168; 1; 75; 30; 79; 0; 196; 34;
   38; 218; 97; 62; 194; 58; 230; 67; 209; 164; 231; 10; 146; 116; 70; 93; 2; 154; 76; 181;
   31; 50; 94; 64; 154; 59; 27; 89; 50; 200; 63; 66; 70; 94; 145; 159; 86; 52; 90; 178;
   156; 50; 161; 50; 206; 91; 149; 147; 22; 22; 218; 184; 3; 13; 61; 231; 111; 234; 144; 67;
   253; 95; 147; 4])
  (py_ipv8_header (bs [185; 95; 161; 221; 207; 171; 191; 187; 161; 96; 240; 60; 68; 25; 173; 73; 171; 20; 227; 143]) (byte_of_N 245))
  12 (IntroductionResponse (ip4 81 171 27 194 15863) (ip4 192 168 1 75 8090) (ip4 192 168 1 75 8090) (ip4 192 168 1 75 7759) (ip4 192 168 1 75 7759) false UNKNOWN 50210 (RawEnd (bs []))).
Proof. vm_compute. repeat split. Qed.

(** [test_packet_10] (testpyipv8packets.rs:557) *)
Example test_packet_10 : pyipv8_test TIntroductionRequest (bs [
   0; 2; 186; 243; 14; 217; 25; 43; 163; 84; 205; 215; 177; 115; 224; 239; 44; 50; 128; 39;
   241; 211; 246; 0; 74; 76; 105; 98; 78; 97; 67; 76; 80; 75; 58; 81; 231; 18; 196; 235;
   138; 194; 90; 227; 165; 104; 36; 8; 178; 173; 189; 107; 120; 164; 37; 84; 127; 38; 133; 207;
   223; 30; 233; 39; 12; 190; 126; 195; 54; 196; 22; 15; 245; 114; 5; 76; 135; 120; 66; 190;
   55; 115; 80; 69; 169; 59; 196; 226; 4; 21; 49; 111; 219; 20; 113; 97; 162; 215; 70; 0;
   0; 0; 0; 0; 0; 0; 151; 81; 171; 27; 194; 43; 103; 192; 168; 1; 75; 31; 154; 192;
   168; 1; 75; 31; 154; 1; 0; 151; 0; 0; 0; 0; 3; 165; 219; 245; 204; 2; 26; 33;
   233; 112; 45; 138; 242; 145; 180; 98; 73; 145; 178; 65; 8; 137; 227; 69; 161; 156; 47; 249;
   11; 96; 38; 201; 112; 104; 42; 188; 209; 3; 71; 45; 253; 238; 25; 216; 249; 72; 110; 191;
   43; 253; 231; 12; 134; 215; 188; 0; 166; 33; 254; 38; 34; 137; 218; 11])
  (py_ipv8_header (bs [186; 243; 14; 217; 25; 43; 163; 84; 205; 215; 177; 115; 224; 239; 44; 50; 128; 39; 241; 211]) (byte_of_N 246))
  151 (IntroductionRequest (ip4 81 171 27 194 11111) (ip4 192 168 1 75 8090) (ip4 192 168 1 75 8090) false PUBLIC 151 (RawEnd (bs [0; 0; 0; 0]))).
Proof. vm_compute. repeat split. Qed.
