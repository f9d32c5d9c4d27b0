(** Properties C11-C17: the BSON codec. *)
From Coq Require Import String.
From Verif Require Import Base Values Env0 BsonModel BsonSpec BsonThms BsonRound BsonEncode BsonMore Env0Thms.

(** ** C11 *)
Theorem C11_roundtrip : forall E u kvs dst out rest,
  index_parser_ok E -> bplain E (VObject u kvs) ->
  Value2Bson E (VObject u kvs) [] = Ok out -> zlen out < 2 ^ 32 ->
  Value2Bson E (VObject u kvs) dst = Ok (dst ++ out) /\
  NewValueFromBson E (out ++ rest) = Ok (VObject u kvs).
Proof. intros E u kvs dst out rest Hx Hp Ho Hz. exact (round_trip E _ dst out rest Hx Hp (ex_intro _ u (ex_intro _ kvs eq_refl)) Ho Hz). Qed.
Print Assumptions C11_roundtrip.

(** Encoding a plain document always succeeds. *)
Theorem C11_encodes : forall E u kvs, bplain E (VObject u kvs) ->
  exists out, Value2Bson E (VObject u kvs) [] = Ok out.
Proof.
  intros E u kvs Hp. destruct (bplain_doc E _ Hp) as (m & Hd & _).
  exists (payload m). exact (Value2Bson_conforms E (VObject u kvs) m [] I Hd).
Qed.
Print Assumptions C11_encodes.

(** The exact result for everything that has a BSON document. *)
Theorem C11_roundtrip_any : forall E kvs u m rest, index_parser_ok E ->
  doc_of E (VObject u kvs) = Some m ->
  bwf m -> readable E m -> dates_ok m -> zlen (payload m) < 2 ^ 32 ->
  exists out, Value2Bson E (VObject u kvs) [] = Ok out /\ NewValueFromBson E (out ++ rest) = Ok (btree E m).
Proof. exact round_trip_any. Qed.
Print Assumptions C11_roundtrip_any.

(** Any conforming document (written by whatever program) is read as its tree. *)
Theorem C11_decodes_conforming : forall E kvs rest, index_parser_ok E ->
  bwf (BDoc kvs) -> readable E (BDoc kvs) -> dates_ok (BDoc kvs) -> zlen (payload (BDoc kvs)) < 2 ^ 32 ->
  NewValueFromBson E (payload (BDoc kvs) ++ rest) = Ok (btree E (BDoc kvs)).
Proof. exact decode_doc. Qed.
Print Assumptions C11_decodes_conforming.

Definition ex_doc : value := VObject true
  [(bs "a", VInt 0 5); (bs "list", VArray [VString (bs "x"); VInt 0 (- 2 ^ 40); VTrue; VNull]);
   (bs "oid", VBinary 7 [1;2;3;4;5;6;7;8;9;10;11;12]);
   (bs "sub", VObject true [(bs "d", VDouble 4607182418800017408); (bs "t", VDateTime (2 ^ 40))]);
   (bs "ts", VInt 17 (-1))].
Example C11_nonvacuous : exists out,
  bplain (env0 true) ex_doc /\ Value2Bson (env0 true) ex_doc [] = Ok out /\ zlen out < 2 ^ 32 /\
  NewValueFromBson (env0 true) (out ++ [9; 9]) = Ok ex_doc.
Proof.
  assert (Hb : forall b, forallb (fun x => (0 <=? x) && (x <? 256)) b = true -> bytes_ok b).
  { intros b H. apply Forall_forall. intros x Hx. rewrite forallb_forall in H. specialize (H x Hx). unfold byte_ok.
    apply andb_prop in H as [H1 H2]. apply Z.leb_le in H1. apply Z.ltb_lt in H2. lia. }
  eexists. split.
  - unfold ex_doc. cbn [bplain fold_right fst snd]. unfold no_nul, names_apart, i64_ok.
    repeat match goal with
    | |- _ /\ _ => split
    | |- bytes_ok _ => apply Hb; reflexivity
    | |- ~ In 0 _ => cbn; intuition discriminate
    | |- ForallOrdPairs _ _ => repeat constructor
    | |- True => exact I
    | |- _ <> [] => discriminate
    | |- true = true => reflexivity
    end.
    + left. lia.
    + left. lia.
    + left. split; reflexivity.
    + lia.
    + lia.
    + exists 1024000. vm_compute. intuition discriminate.
    + right. lia.
  - split; [vm_compute; reflexivity|]. split; [vm_compute; reflexivity|]. vm_compute. reflexivity.
Qed.

(** ** C12 *)
Theorem C12_integers : forall E u k n rest, index_parser_ok E -> bytes_ok k -> no_nul k ->
  (u = true \/ x_unescape E k = k) -> zlen k < 2 ^ 31 -> i64_ok n ->
  exists out, Value2Bson E (VObject u [(k, VInt 0 n)]) [] = Ok out /\
    NewValueFromBson E (out ++ rest) =
      Ok (VObject true [(k, VInt 0 (if (- 2 ^ 31 <=? n) && (n <? 0) then n + 2 ^ 32 else n))]).
Proof. exact int_back. Qed.
Print Assumptions C12_integers.
Theorem C12_refuted : ~ forall E n out v, index_parser_ok E -> i64_ok n ->
  Value2Bson E (VObject true [(bs "n", VInt 0 n)]) [] = Ok out ->
  NewValueFromBson E out = Ok v -> v = VObject true [(bs "n", VInt 0 n)].
Proof.
  intros H.
  assert (Hc := H (env0 false) (-1) _ _ (env0_index false) ltac:(unfold i64_ok; lia)
     (eq_refl : _ = Ok [12;0;0;0;16;110;0;255;255;255;255;0])
     (eq_refl : _ = Ok (VObject true [(bs "n", VInt 0 4294967295)]))).
  discriminate.
Qed.
Print Assumptions C12_refuted.
Example C12_nonvacuous : (if (- 2 ^ 31 <=? -7) && (-7 <? 0) then -7 + 2 ^ 32 else -7) = 4294967289 /\
  NewValueFromBson (env0 false) [16;0;0;0;18;110;0;0;0;0;0;255;255;255;255;0] =
    Ok (VObject true [(bs "n", VInt 0 (- 2 ^ 32))]).
Proof. split; vm_compute; reflexivity. Qed.

(** ** C13 *)
Theorem C13_float32_refuted : forall E u k raw rest, index_parser_ok E -> bytes_ok k -> no_nul k ->
  (u = true \/ x_unescape E k = k) -> zlen k < 2 ^ 31 -> 0 <= raw < 2 ^ 32 -> raw <> 0 ->
  exists out bits, Value2Bson E (VObject u [(k, VFloat raw)]) [] = Ok out /\
    NewValueFromBson E (out ++ rest) = Ok (VObject true [(k, VDouble bits)]) /\
    f64_scaled bits <> f32_scaled raw.
Proof.
  intros E u k raw rest H1 H2 H3 H4 H5 H6 H7.
  destruct (float_back E u k raw rest H1 H2 H3 H4 H5) as (out & Ho & Hd); [lia|].
  exists out, raw. split; [exact Ho|split; [exact Hd|]]. intros H. apply H7, float_value_lost; assumption.
Qed.
Print Assumptions C13_float32_refuted.
(** 1.0f: the written document reads back as 5.26e-315; the scaled values differ. *)
Example C13_nonvacuous :
  (do out <- Value2Bson (env0 false) (VObject true [(bs "f", VFloat 0x3f800000)]) [];
   NewValueFromBson (env0 false) out) = Ok (VObject true [(bs "f", VDouble 0x3f800000)]) /\
  f32_scaled 0x3f800000 = Some (2 ^ 1074) /\ f64_scaled 0x3ff0000000000000 = Some (2 ^ 1074).
Proof. split; [|split]; vm_compute; reflexivity. Qed.

(** ** C14 *)
Theorem C14_binary_refuted : forall E u k b rest, index_parser_ok E -> bytes_ok k -> no_nul k ->
  (u = true \/ x_unescape E k = k) -> zlen k + zlen b < 2 ^ 31 -> bytes_ok b ->
  exists out, Value2Bson E (VObject u [(k, VBinary 0 b)]) [] = Ok out /\
    NewValueFromBson E (out ++ rest) = Ok (VObject true [(k, VBinary 0 (0 :: b))]).
Proof. exact binary_back. Qed.
Print Assumptions C14_binary_refuted.
Theorem C14_grows : forall E n k b, index_parser_ok E -> bytes_ok k -> no_nul k ->
  zlen k + zlen b + Z.of_nat n < 2 ^ 31 -> bytes_ok b ->
  rewrite_n E n (VObject true [(k, VBinary 0 b)]) = Ok (VObject true [(k, VBinary 0 (repeat 0 n ++ b))]).
Proof. exact binary_grows. Qed.
Print Assumptions C14_grows.
Example C14_nonvacuous : rewrite_n (env0 false) 3 (VObject true [(bs "b", VBinary 0 [7; 8])]) =
  Ok (VObject true [(bs "b", VBinary 0 [0; 0; 0; 7; 8])]).
Proof. vm_compute; reflexivity. Qed.

(** ** C15 *)
Theorem C15_top_refuted : forall E u dst rest, ~ In 0 rest ->
  Value2Bson E (VObject u []) dst = Ok (dst ++ [5; 0; 0; 0; 0]) /\
  NewValueFromBson E ([5; 0; 0; 0; 0] ++ rest) = Err ErrInvalidBSON.
Proof. exact empty_top. Qed.
Print Assumptions C15_top_refuted.
(** A nested empty object, at any place in a document, comes back with one bogus key:
    the type byte and name of the following element (or the empty name). *)
Theorem C15_nested_refuted : forall E kvs1 k kvs2 rest, index_parser_ok E ->
  bwf (BDoc (kvs1 ++ (k, BDoc []) :: kvs2)) ->
  names_apart E (kvs1 ++ (k, BDoc []) :: kvs2) ->
  Forall (fun kv => readable E (snd kv) /\ dates_ok (snd kv)) (kvs1 ++ kvs2) ->
  zlen (payload (BDoc (kvs1 ++ (k, BDoc []) :: kvs2))) < 2 ^ 32 ->
  NewValueFromBson E (payload (BDoc (kvs1 ++ (k, BDoc []) :: kvs2)) ++ rest) =
  Ok (VObject true (map (fun kv => (fst kv, btree E (snd kv))) kvs1 ++
       (k, VObject true [(bogus_key kvs2, VNull)]) ::
       map (fun kv => (fst kv, btree E (snd kv))) kvs2)).
Proof. exact empty_in_doc. Qed.
Print Assumptions C15_nested_refuted.
(** A nested empty array makes the whole document unreadable, unless what follows happens
    to be a number. *)
Theorem C15_array_refuted : forall E kvs1 k kvs2 rest, index_parser_ok E ->
  x_str2int E (bogus_key kvs2) (-1) = -1 ->
  bwf (BDoc (kvs1 ++ (k, BArr []) :: kvs2)) ->
  names_apart E (kvs1 ++ (k, BArr []) :: kvs2) ->
  Forall (fun kv => readable E (snd kv) /\ dates_ok (snd kv)) kvs1 ->
  zlen (payload (BDoc (kvs1 ++ (k, BArr []) :: kvs2))) < 2 ^ 32 ->
  NewValueFromBson E (payload (BDoc (kvs1 ++ (k, BArr []) :: kvs2)) ++ rest) = Err ErrInvalidArrayBsonIndex.
Proof. exact empty_arr_in_doc. Qed.
Print Assumptions C15_array_refuted.
Example C15_nonvacuous :
  (do out <- Value2Bson (env0 false) (VObject true [(bs "e", VObject true []); (bs "n", VInt 0 1)]) [];
   NewValueFromBson (env0 false) out) =
  Ok (VObject true [(bs "e", VObject true [(16 :: bs "n", VNull)]); (bs "n", VInt 0 1)]) /\
  (do out <- Value2Bson (env0 false) (VObject true [(bs "e", VArray [])]) [];
   NewValueFromBson (env0 false) out) = Err ErrInvalidArrayBsonIndex.
Proof. split; vm_compute; reflexivity. Qed.

(** ** C16 *)
Theorem C16_headers : forall E v dst out, Value2Bson E v dst = Ok out -> zlen out - zlen dst < 2 ^ 32 ->
  exists o, out = dst ++ o /\ Value2Bson E v [] = Ok o /\
  forall w, container w -> part w v ->
    exists p d q, o = p ++ d ++ q /\ Value2Bson E w [] = Ok d /\
      le_val (firstn 4 d) = zlen d /\ last d 1 = 0.
Proof. exact headers. Qed.
Print Assumptions C16_headers.
(** The bytes are those of the format for every value that has a document. *)
Theorem C16_conforms : forall E v m dst, container v -> doc_of E v = Some m ->
  Value2Bson E v dst = Ok (dst ++ payload m).
Proof. exact Value2Bson_conforms. Qed.
Print Assumptions C16_conforms.
Example C16_nonvacuous : exists out,
  Value2Bson (env0 false) (VObject true [(bs "k", VArray [VNan; VInt 0 1])]) [7; 7] = Ok out /\
  part (VArray [VNan; VInt 0 1]) (VObject true [(bs "k", VArray [VNan; VInt 0 1])]) /\
  out = [7; 7] ++ [22;0;0;0; 4;107;0; 14;0;0;0; 48;0; 16;49;0;1;0;0;0; 0; 0].
Proof. eexists. split; [vm_compute; reflexivity|]. split; [|vm_compute; reflexivity]. eapply part_obj; [left; reflexivity|apply part_here]. Qed.

(** ** C17 *)
Theorem C17_terminates : forall E b, bytes_ok b -> NewValueFromBson E b <> OutOfFuel.
Proof. exact bson_total. Qed.
Print Assumptions C17_terminates.
(** A truncated scalar panics (int32 field with two bytes left). *)
Example C17_panic_witness : NewValueFromBson (env0 false) [10;0;0;0;16;110;0;1;0;0] = Panic /\
  bytes_ok [10;0;0;0;16;110;0;1;0;0].
Proof. split; [vm_compute; reflexivity|]. repeat constructor; discriminate. Qed.
Theorem C17_object : forall E b v, NewValueFromBson E b = Ok v -> exists u kvs, v = VObject u kvs.
Proof. exact bson_object. Qed.
Print Assumptions C17_object.
