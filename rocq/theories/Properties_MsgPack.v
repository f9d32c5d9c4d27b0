(** MessagePack properties C01-C09, C51.  Statements use the encoder/decoder of
    MsgPackModel.v and the format specification of MsgPackSpec.v only; the proofs are in
    MsgPackThms.v and MsgPackThms2.v. *)
From Coq Require Import String.
From Verif Require Import Base Values Env0 MsgPackModel MsgPackSpec Tactics MsgPackFuel MsgPackDecode
  MsgPackEncode MsgPackThms MsgPackThms2.

(** A value exercising every plain kind, used in the examples below. *)
Definition sample : value :=
  VObject true
   [(bs "name", VString (bs "x""y")); (bs "n", VInt 0 (-70000)); (bs "u", VInt 0 5000000000);
    (bs "f", VFloat 0x3fc00000); (bs "d", VDouble 0x3ff8000000000000);
    (bs "b", VBinary 0 [0; 255; 7]); (bs "e", VExBinary 0 [5; 1; 2; 3]);
    (bs "t", VDateTime (1700000000 * 2 ^ 30 + 5));
    (bs "l", VArray [VNull; VTrue; VFalse; VArray []; VObject false []; VString []])].

(** ** C01 *)
Theorem C01_roundtrip : forall E v rest,
  fits E v -> plain E v -> no_fixext v ->
  mp_decode E (Value2MsgPack E v [] ++ rest) = Ok (v, rest).
Proof. exact mp_roundtrip. Qed.
Print Assumptions C01_roundtrip.

Theorem C01_NewValueFromMsgPack : forall E v rest,
  fits E v -> plain E v -> no_fixext v ->
  NewValueFromMsgPack E (Value2MsgPack E v [] ++ rest) = Ok v.
Proof. intros E v rest H1 H2 H3. unfold NewValueFromMsgPack. rewrite mp_roundtrip by auto. reflexivity. Qed.
Print Assumptions C01_NewValueFromMsgPack.

(** Any value with a message (raw strings, duplicate keys, nil elements, unnormalised
    slots included) comes back as the tree of that message. *)
Theorem C01_roundtrip_any : forall E v m rest,
  fits E v -> no_fixext v -> message_of E v = Some m -> ext_clean m ->
  mp_decode E (Value2MsgPack E v [] ++ rest) = Ok (tree_of E m, rest).
Proof. exact mp_roundtrip_gen. Qed.
Print Assumptions C01_roundtrip_any.

Example C01_nonvacuous :
  fits (env0 false) sample /\ plain (env0 false) sample /\ no_fixext sample.
Proof.
  repeat split; try exact I; try (vm_compute; intuition discriminate); try (vm_compute; reflexivity);
    try (unfold bytes_ok, byte_ok; repeat constructor; vm_compute; intuition discriminate);
    try (repeat constructor; vm_compute; reflexivity).
Qed.

(** ** C02 *)
Theorem C02_shortest : forall E n, i64_ok n ->
  int_wire n (Value2MsgPack E (VInt 0 n) []) /\
  forall b, int_wire n b -> (length (Value2MsgPack E (VInt 0 n) []) <= length b)%nat.
Proof. intros E n H. split; [apply writeInt_ok|intros b; apply int_shortest]; auto. Qed.
Print Assumptions C02_shortest.

Theorem C02_decode_exact : forall E n b rest, int_wire n b ->
  mp_decode E (b ++ rest) = Ok (VInt 0 (if n <? 2 ^ 63 then n else n - 2 ^ 64), rest).
Proof. exact int_dec_exact. Qed.
Print Assumptions C02_decode_exact.

Example C02_nonvacuous : i64_ok (-32769) /\ int_wire (-32769) [0xd2; 0xff; 0xff; 0x7f; 0xff] /\
  int_wire 200 [0xd1; 0; 200] /\ int_wire (2 ^ 64 - 1) [0xcf; 255; 255; 255; 255; 255; 255; 255; 255].
Proof.
  repeat split; try (vm_compute; intuition discriminate).
  - eapply iw_i32 with (u := 4294934527); repeat split; repeat constructor; vm_compute; intuition discriminate.
  - eapply iw_i16 with (u := 200); repeat split; repeat constructor; vm_compute; intuition discriminate.
  - eapply iw_u64; repeat split; repeat constructor; vm_compute; intuition discriminate.
Qed.

(** ** C03 *)
Theorem C03_output_conforms : forall E v m,
  fits E v -> no_fixext v -> message_of E v = Some m -> wire m (Value2MsgPack E v []).
Proof. exact V2M_wire. Qed.
Print Assumptions C03_output_conforms.

Theorem C03_append_only : forall E v dst, Value2MsgPack E v dst = dst ++ Value2MsgPack E v [].
Proof. exact V2M_app. Qed.
Print Assumptions C03_append_only.

Theorem C03_accepts_all_conforming : forall E m b rest,
  wire m b -> ext_clean m -> mp_decode E (b ++ rest) = Ok (tree_of E m, rest).
Proof. exact wire_dec. Qed.
Print Assumptions C03_accepts_all_conforming.

(** Without the side condition on extension lengths the output is not MessagePack. *)
Theorem C03_fixext_refuted : forall E t p, In (zlen p) [1; 2; 4; 8; 16] ->
  forall m, ext_clean m -> ~ wire m (Value2MsgPack E (VExBinary 0 (t :: p)) []).
Proof. exact ext_fixlen_nonconforming. Qed.
Print Assumptions C03_fixext_refuted.

Example C03_nonvacuous :
  exists m, message_of (env0 false) sample = Some m /\ wire m (Value2MsgPack (env0 false) sample []) /\ ext_clean m.
Proof.
  eexists. split; [reflexivity|]. destruct C01_nonvacuous as (H1 & H2 & H3).
  split; [apply V2M_wire; auto|]. repeat split; vm_compute; discriminate.
Qed.
(** A conforming encoding the library itself never produces: a one-pair map with a 32-bit
    header, a str 8 key and an int 64 value. *)
Example C03_nonvacuous_foreign :
  wire (MMap [(bs "a", MInt 1)]) ([0xdf; 0; 0; 0; 1] ++ ([0xd9; 1] ++ bs "a" ++ [0xd3; 0; 0; 0; 0; 0; 0; 0; 1] ++ [])).
Proof.
  constructor; [apply mh_32; repeat split; repeat constructor; vm_compute; intuition discriminate|].
  constructor; [repeat constructor; vm_compute; intuition discriminate| | |constructor].
  - apply sh_8; repeat split; repeat constructor; vm_compute; intuition discriminate.
  - constructor. eapply iw_i64 with (u := 1); repeat split; repeat constructor; vm_compute; intuition discriminate.
Qed.

(** ** C04 *)
Theorem C04_truncation : forall E v m p q,
  fits E v -> no_fixext v -> message_of E v = Some m -> ext_clean m ->
  Value2MsgPack E v [] = p ++ q -> q <> [] -> forall x t, mp_decode E p <> Ok (x, t).
Proof. exact enc_trunc. Qed.
Print Assumptions C04_truncation.

Theorem C04_truncation_any_conforming : forall E m p q,
  wire m (p ++ q) -> ext_clean m -> q <> [] -> forall v t, mp_decode E p <> Ok (v, t).
Proof. exact wire_trunc. Qed.
Print Assumptions C04_truncation_any_conforming.

Example C04_nonvacuous : exists p q,
  Value2MsgPack (env0 false) sample [] = p ++ q /\ q <> [] /\ (3 <= length p)%nat.
Proof.
  exists (firstn 10 (Value2MsgPack (env0 false) sample [])), (skipn 10 (Value2MsgPack (env0 false) sample [])).
  vm_compute. repeat split; [discriminate|repeat constructor].
Qed.

(** ** C05 *)
Theorem C05_terminates : forall E b f, (mp_fuel b <= f)%nat ->
  mp_value E f b <> OutOfFuel /\ mp_value E f b = mp_decode E b.
Proof. intros E b f H. rewrite fuel_any by auto. split; auto. apply dec_total. Qed.
Print Assumptions C05_terminates.

Theorem C05_prefix_determined : forall E b v t q, bytes_ok b -> mp_decode E b = Ok (v, t) ->
  (exists p, b = p ++ t) /\
  (mp_decode E (b ++ q) = Ok (v, t ++ q) \/
   (has_nil v /\ t = [] /\ mp_decode E (b ++ q) = Ok (v, []))).
Proof. intros E b v t q Hb H. split; [apply (dec_suf E b v t H)|apply dec_local; auto]. Qed.
Print Assumptions C05_prefix_determined.

Example C05_nonvacuous : mp_decode (env0 false) [0x92; 1; 0xa1; 97; 3] = Ok (VArray [VInt 0 1; VString [97]], [3]).
Proof. reflexivity. Qed.

(** ** C06 *)
(** The English claim fails: these inputs panic, or give a nil value and no error. *)
Theorem C06_refuted : forall E,
  mp_decode E [0x81] = Panic /\ mp_decode E [0xd4; 0] = Panic /\
  mp_decode E [0xc7; 1; 0xff; 0] = Panic /\ mp_decode E [0xc1; 5] = Ok (VNilP, []).
Proof. intros E. repeat split; reflexivity. Qed.
Print Assumptions C06_refuted.

(** These families are the only exceptions, on every input... *)
Theorem C06_outcomes : forall E b, bytes_ok b ->
  (exists v t, mp_decode E b = Ok (v, t) /\ (has_nil v -> In 0xc1 b)) \/
  (exists e, mp_decode E b = Err e) \/
  (mp_decode E b = Panic /\ exists p s, b = p ++ s /\ fatal_tail s).
Proof. exact dec_cases. Qed.
Print Assumptions C06_outcomes.

(** ...each of them really panics... *)
Theorem C06_fatal_panics : forall E s, bytes_ok s -> fatal_tail s -> mp_decode E s = Panic.
Proof. exact fatal_panics. Qed.
Print Assumptions C06_fatal_panics.

(** ...and whatever is accepted reads as a message, up to the named leniencies; a reading
    without them conforms to the format. *)
Theorem C06_sound : forall E b v t, bytes_ok b -> mp_decode E b = Ok (v, t) ->
  exists l d, b = d ++ t /\ lwire l d /\ v = ltree E l /\
    forall m, strict l = Some m -> wire m d /\ v = tree_of E m.
Proof. exact dec_sound_strict. Qed.
Print Assumptions C06_sound.

Example C06_nonvacuous : bytes_ok [0x82; 0xa1; 97; 1; 0xc4; 1; 98] /\
  mp_decode (env0 false) [0x82; 0xa1; 97; 1; 0xc4; 1; 98; 7] =
    Ok (VObject true [([97], VInt 0 1); ([98], VInt 0 7)], []).
Proof. split; [repeat constructor; vm_compute; intuition discriminate|reflexivity]. Qed.

(** ** C07 *)
Theorem C07_roundtrip : forall E t p rest,
  byte_ok t -> bytes_ok p -> t <> 255 -> zlen p < 2 ^ 32 -> ~ In (zlen p) [1; 2; 4; 8; 16] ->
  mp_decode E (Value2MsgPack E (VExBinary 0 (t :: p)) [] ++ rest) = Ok (VExBinary 0 (t :: p), rest).
Proof. exact ext_other_ok. Qed.
Print Assumptions C07_roundtrip.

Theorem C07_fixext_refuted : forall E t p rest, In (zlen p) [1; 2; 4; 8; 16] ->
  mp_decode E (Value2MsgPack E (VExBinary 0 (t :: p)) [] ++ rest) =
  Ok (VExBinary 0 (0xc7 :: zlen p :: firstn (Z.to_nat (zlen p - 1)) (t :: p)),
      skipn (Z.to_nat (zlen p - 1)) (t :: p) ++ rest).
Proof. exact ext_fixlen. Qed.
Print Assumptions C07_fixext_refuted.

Example C07_nonvacuous : ~ In (zlen [1; 2; 3]) [1; 2; 4; 8; 16] /\ In (zlen [9; 9]) [1; 2; 4; 8; 16].
Proof. vm_compute. intuition discriminate. Qed.

(** ** C08 *)
Theorem C08_duplicate_keys : forall E kvs d rest v, fold_equiv E ->
  wire (MMap kvs) d -> ext_clean (MMap kvs) -> mp_decode E (d ++ rest) = Ok (v, rest) ->
  exists u items, v = VObject u items /\
    map fst items = first_occ (key_match E) [] (map fst kvs) /\
    forall k, assoc_first (key_match E) k items =
      option_map (tree_of E) (assoc_last (key_match E) k kvs).
Proof. exact dup_keys. Qed.
Print Assumptions C08_duplicate_keys.

Lemma env0_fold_equiv ic : fold_equiv (env0 ic).
Proof.
  intros _. cbn [x_fold env0]. repeat split; intros.
  - apply beq_refl.
  - rewrite beq_sym; auto.
  - apply beq_eq in H, H0. rewrite H, H0. apply beq_refl.
Qed.
Example C08_nonvacuous :
  fold_equiv (env0 true) /\
  mp_decode (env0 true) [0x83; 0xa1; 97; 1; 0xa1; 98; 2; 0xa1; 65; 3] =
    Ok (VObject true [([97], VInt 0 3); ([98], VInt 0 2)], []).
Proof. split; [apply env0_fold_equiv|reflexivity]. Qed.

(** ** C09 *)
(** The decoder hands exactly the encoded (seconds, nanoseconds) to Time2DelphiTime, and
    the encoder uses the smallest of the three formats that can hold the instant. *)
Theorem C09_timestamp_exact : forall E bits sec nsec rest,
  x_totime E bits = (sec, nsec) -> i64_ok sec -> 0 <= nsec <= 999999999 ->
  mp_decode E (Value2MsgPack E (VDateTime bits) [] ++ rest) =
    Ok (VDateTime (x_delphi E (sec, nsec)), rest) /\
  zlen (Value2MsgPack E (VDateTime bits) []) =
    (if (nsec =? 0) && (0 <=? sec) && (sec <? 2 ^ 32) then 6
     else if (0 <=? sec) && (sec <? 2 ^ 34) then 10 else 15).
Proof. exact time_exact. Qed.
Print Assumptions C09_timestamp_exact.

Theorem C09_decode_all_formats : forall E sec nsec b rest, time_wire sec nsec b ->
  mp_decode E (b ++ rest) = Ok (VDateTime (x_delphi E (sec, nsec)), rest).
Proof. exact time_dec. Qed.
Print Assumptions C09_decode_all_formats.

Example C09_nonvacuous : x_totime (env0 false) (-5 * 2 ^ 30 + 999999999) = (-5, 999999999) /\ i64_ok (-5).
Proof. split; [reflexivity|vm_compute; intuition discriminate]. Qed.

(** ** C51 *)
Theorem C51_nan_inf_refuted : forall E l,
  Forall (fun x => x = VNan \/ x = VInf) l -> l <> [] -> zlen l < 2 ^ 32 ->
  forall v t, mp_decode E (Value2MsgPack E (VArray l) []) <> Ok (v, t).
Proof. intros E l H1 H2 H3 v t. rewrite <- (app_nil_r (Value2MsgPack E (VArray l) [])). apply nan_unreadable; auto. Qed.
Print Assumptions C51_nan_inf_refuted.

Example C51_nonvacuous : Forall (fun x => x = VNan \/ x = VInf) [VNan; VInf].
Proof. constructor; [left|constructor; [right|constructor]]; reflexivity. Qed.
