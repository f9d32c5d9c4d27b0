(** Property C99: the predicates of a MessagePack type byte. *)
From Coq Require Import String.
From Verif Require Import Base Values Tactics Env0 MsgPackModel MsgCodeModel MsgPackSpec MsgPackThms Properties_MsgPack.

(** The kinds of value, and the type bytes of the MessagePack format for each, written as the ranges of the specification. *)
Inductive mkind := MInt | MStr | MArr | MMap | MBin | MExt | MFloat | MDouble | MTrue | MFalse | MNil | MNone.
Definition spec_kind (c : Z) : mkind :=
  if c <? 0x80 then MInt else if c <? 0x90 then MMap else if c <? 0xa0 then MArr else if c <? 0xc0 then MStr
  else if c <? 0xc1 then MNil else if c <? 0xc2 then MNone else if c <? 0xc3 then MFalse else if c <? 0xc4 then MTrue
  else if c <? 0xc7 then MBin else if c <? 0xca then MExt else if c <? 0xcb then MFloat else if c <? 0xcc then MDouble
  else if c <? 0xd4 then MInt else if c <? 0xd9 then MExt else if c <? 0xdc then MStr else if c <? 0xde then MArr
  else if c <? 0xe0 then MMap else MInt.
(** The kind of a value; [None]: kinds that have no MessagePack form of their own. *)
Definition kind_of (v : value) : option mkind :=
  match v with
  | VInt _ _ => Some MInt | VString _ | VRawString _ => Some MStr | VArray _ => Some MArr | VObject _ _ => Some MMap | VBinary _ _ => Some MBin
  | VExBinary _ _ | VDateTime _ => Some MExt | VFloat _ => Some MFloat | VDouble _ => Some MDouble | VTrue => Some MTrue | VFalse => Some MFalse
  | VNull => Some MNil | VNilP => Some MNone | VNan | VInf => None
  end.

Ltac codes := unfold IsInt, IsStr, IsArray, IsMap, IsBin, IsExt, IsFixedNum, IsFixedStr, between, CodeNil, CodeFalse, CodeTrue, CodeBin8, CodeBin16, CodeBin32,
  CodeExt8, CodeExt16, CodeExt32, CodeFloat, CodeDouble, CodeUint8, CodeUint16, CodeUint32, CodeUint64, CodeInt8, CodeInt16, CodeInt32, CodeInt64,
  CodeFixExt1, CodeFixExt2, CodeFixExt4, CodeFixExt8, CodeFixExt16, CodeStr8, CodeStr16, CodeStr32, CodeArray16, CodeArray32, CodeMap16, CodeMap32 in *.
Ltac cmp := repeat (match goal with |- context[?a <? ?b] => destruct (Z.ltb_spec a b) | |- context[?a <=? ?b] => destruct (Z.leb_spec a b) | |- context[?a =? ?b] => destruct (Z.eqb_spec a b) end; try lia; cbn [andb orb]).

(** Each predicate holds of exactly the type bytes of its kind. *)
Theorem C99_predicates : forall c, byte_ok c ->
  (IsInt c = true <-> spec_kind c = MInt) /\ (IsStr c = true <-> spec_kind c = MStr) /\ (IsArray c = true <-> spec_kind c = MArr) /\
  (IsMap c = true <-> spec_kind c = MMap) /\ (IsBin c = true <-> spec_kind c = MBin) /\ (IsExt c = true <-> spec_kind c = MExt).
Proof.
  intros c B. unfold byte_ok in B. unfold spec_kind. codes.
  repeat match goal with |- context[c <? ?b] => destruct (Z.ltb_spec c b); try lia end;
  repeat split; intros H'; try discriminate; try reflexivity; try lia; exfalso; lia.
Qed.
Print Assumptions C99_predicates.
(** At most one of them holds, so their order in a switch does not matter. *)
Theorem C99_apart : forall c, byte_ok c -> (List.length (List.filter (fun p => p c) [IsInt; IsStr; IsArray; IsMap; IsBin; IsExt]) <= 1)%nat.
Proof.
  intros c B. destruct (C99_predicates c B) as (P1 & P2 & P3 & P4 & P5 & P6). cbn [List.filter].
  destruct (IsInt c), (IsStr c), (IsArray c), (IsMap c), (IsBin c), (IsExt c); cbn [List.length]; try lia; exfalso; intuition congruence.
Qed.
Print Assumptions C99_apart.

(** ** Decoding *)
Lemma arr_kind E f : forall n b acc v t, mp_array E f n b acc = Ok (v, t) -> kind_of v = Some MArr.
Proof.
  induction f as [|f IH]; intros n b acc v t H; cbn [mp_array] in H; [discriminate|]. destruct (n <=? 0); [injection H as <- _; reflexivity|].
  destruct (mp_value E f b) as [[x b']| | |]; cbn [bind] in H; try discriminate. eauto.
Qed.
Lemma map_kind E f : forall n b u kvs v t, mp_map E f n b (VObject u kvs) = Ok (v, t) -> kind_of v = Some MMap.
Proof.
  induction f as [|f IH]; intros n b u kvs v t H; cbn [mp_map] in H; [discriminate|]. destruct (n <=? 0); [injection H as <- _; reflexivity|].
  destruct b as [|c b]; [discriminate|]. destruct (parseStr c b) as [[k b1]| | |]; cbn [bind] in H; try discriminate.
  destruct (mp_value E f b1) as [[x b2]| | |]; cbn [bind] in H; try discriminate.
  destruct (set_key_value E (VObject u kvs) k x) eqn:Q; try (cbn in Q; repeat match type of Q with context[match ?x with _ => _ end] => destruct x end; discriminate). eauto.
Qed.
Lemma ext_kind E c b v t : parseExt E c b = Ok (v, t) -> kind_of v = Some MExt.
Proof.
  unfold parseExt. destruct (parseExtLen c b) as [[n b1]| | |]; cbn [bind]; try discriminate.
  destruct (zlen b1 <? n); [discriminate|]. destruct (zlen b1 <? n + 1); [discriminate|]. cbv zeta. destruct b1 as [|t0 b2]; [discriminate|].
  destruct (IsTime c t0); [|intros H; injection H as <- _; reflexivity].
  destruct (c =? CodeFixExt4); [destruct (be32 b2); cbn [bind]; try discriminate; intros H; injection H as <- _; reflexivity|].
  destruct (c =? CodeFixExt8); [destruct (be64 b2); cbn [bind]; try discriminate; intros H; injection H as <- _; reflexivity|].
  destruct (be32 b2); cbn [bind]; try discriminate. destruct (zlen b2 <? 4); [discriminate|].
  destruct (be64 _); cbn [bind]; try discriminate; intros H; injection H as <- _; reflexivity.
Qed.
(** The type byte of a message tells the kind of the value that is decoded from it. *)
Theorem C99_decode : forall E c b v, byte_ok c -> NewValueFromMsgPack E (c :: b) = Ok v -> kind_of v = Some (spec_kind c).
Proof.
  intros E c b v B H. destruct (C99_predicates c B) as (P1 & P2 & P3 & P4 & P5 & P6). unfold NewValueFromMsgPack, mp_decode in H.
  destruct (mp_value E (mp_fuel (c :: b)) (c :: b)) as [[v' t]| | |] eqn:Q; cbn [bind] in H; try discriminate. injection H as ->.
  destruct (mp_fuel (c :: b)) as [|f]; [discriminate|]. cbn [mp_value] in Q. unfold parseScalar in Q. destruct (IsStr c) eqn:I1.
  { rewrite (proj1 P2 eq_refl). destruct (parseStr c b) as [[]| | |]; cbn [bind] in Q; try discriminate. injection Q as <- _. reflexivity. }
  destruct (IsArray c) eqn:I2.
  { rewrite (proj1 P3 eq_refl). destruct (parseArrLen c b) as [[n b1]| | |]; cbn [bind] in Q; try discriminate.
    destruct (n =? 0); [injection Q as <- _; reflexivity|exact (arr_kind _ _ _ _ _ _ _ Q)]. }
  destruct (IsMap c) eqn:I3.
  { rewrite (proj1 P4 eq_refl). destruct (parseMapLen c b) as [[n b1]| | |]; cbn [bind] in Q; try discriminate.
    destruct (n =? 0); [injection Q as <- _; reflexivity|]. destruct b1 as [|c1 b1]; [discriminate|]. destruct (IsStr c1); [|discriminate]. exact (map_kind _ _ _ _ _ _ _ _ Q). }
  destruct (IsFixedNum c) eqn:I4.
  { injection Q as <- _. rewrite (proj1 P1); [reflexivity|]. clear - I4. codes. lia. }
  assert (INT : IsInt c = between CodeUint8 CodeInt64 c) by (clear - I4; codes; lia).
  assert (IV : between CodeUint8 CodeInt64 c = true -> spec_kind c = MInt) by (rewrite <- INT; apply P1).
  repeat match type of Q with
  | (if (c =? ?n) || (c =? ?m) then _ else _) = _ => destruct ((c =? n) || (c =? m)) eqn:?
  | (if c =? ?n then _ else _) = _ => destruct (Z.eqb_spec c n) as [->|?]
  | (do p <- ?x; _) = _ => destruct x as [[]| | |]; cbn [bind] in Q; try discriminate Q
  | Ok _ = Ok _ => injection Q as <- _
  end; try reflexivity.
  - rewrite IV; [reflexivity|]. clear - Heqb0. codes. lia.
  - destruct (IsBin c) eqn:I5.
    + rewrite (proj1 P5 eq_refl). destruct (parseLen c b) as [[ln b1]| | |]; cbn [bind] in Q; try discriminate. destruct (ln <=? zlen b1); [|discriminate]. injection Q as <- _. reflexivity.
    + destruct (IsExt c) eqn:I6; [rewrite (proj1 P6 eq_refl); exact (ext_kind _ _ _ _ _ Q)|]. injection Q as <- _.
      assert (c = 193) as ->; [|reflexivity]. unfold byte_ok in B. clear - B I1 I2 I3 I4 I5 I6 Heqb0 n n0 n1 n2 n3 n4 n5 n6 n7 n8 n9. codes; lia.
Qed.
Print Assumptions C99_decode.
(** With the predicates: what [IsInt] accepts is decoded as an integer and nothing else is, and so for the others. *)
Theorem C99_tell : forall E c b v, byte_ok c -> NewValueFromMsgPack E (c :: b) = Ok v ->
  (IsInt c = true <-> kind_of v = Some MInt) /\ (IsStr c = true <-> kind_of v = Some MStr) /\ (IsArray c = true <-> kind_of v = Some MArr) /\
  (IsMap c = true <-> kind_of v = Some MMap) /\ (IsBin c = true <-> kind_of v = Some MBin) /\ (IsExt c = true <-> kind_of v = Some MExt).
Proof.
  intros E c b v B H. rewrite (C99_decode E c b v B H).
  assert (S : forall k, Some (spec_kind c) = Some k <-> spec_kind c = k) by (intros k; split; congruence). rewrite !S. exact (C99_predicates c B).
Qed.
Print Assumptions C99_tell.
(** [IsTime], asked with the type byte of the extension, tells a time from other extensions. *)
Theorem C99_time : forall E c n b t r v, byte_ok c -> IsExt c = true -> parseExtLen c b = Ok (n, t :: r) -> NewValueFromMsgPack E (c :: b) = Ok v ->
  (IsTime c t = true <-> exists d, v = VDateTime d).
Proof.
  intros E c n b t r v B IX PL H. destruct (C99_predicates c B) as (P1 & P2 & P3 & P4 & P5 & P6). pose proof (proj1 P6 IX) as K.
  unfold NewValueFromMsgPack, mp_decode in H. destruct (mp_value E (mp_fuel (c :: b)) (c :: b)) as [[v' u]| | |] eqn:Q; cbn [bind] in H; try discriminate. injection H as ->.
  destruct (mp_fuel (c :: b)) as [|f]; [discriminate|]. cbn [mp_value] in Q.
  assert (PE : parseExt E c b = Ok (v, u)).
  { destruct (IsStr c) eqn:I1; [rewrite (proj1 P2 eq_refl) in K; discriminate|]. destruct (IsArray c) eqn:I2; [rewrite (proj1 P3 eq_refl) in K; discriminate|].
    destruct (IsMap c) eqn:I3; [rewrite (proj1 P4 eq_refl) in K; discriminate|]. rewrite <- Q. clear - IX. unfold parseScalar.
    assert (X : (199 <= c <= 201 \/ 212 <= c <= 216)%Z) by (codes; lia). rewrite IX. codes.
    repeat match goal with |- context[if ?x then _ else _] => destruct x eqn:? ; [exfalso; lia|] end. reflexivity. }
  clear Q. unfold parseExt in PE. rewrite PL in PE. cbn [bind] in PE. destruct (zlen (t :: r) <? n); [discriminate|]. destruct (zlen (t :: r) <? n + 1); [discriminate|].
  cbv zeta in PE. destruct (IsTime c t).
  - split; [intros _|reflexivity]. repeat match type of PE with
    | (if ?x then _ else _) = _ => destruct x; try discriminate PE
    | (do p <- ?x; _) = _ => destruct x; cbn [bind] in PE; try discriminate PE
    end; injection PE as <- _; eauto.
  - injection PE as <- _. split; [discriminate|intros (d & Q); discriminate].
Qed.
Print Assumptions C99_time.

(** ** Encoding *)
Definition head (b : bytes) : option Z := match b with c :: _ => Some c | [] => None end.
Lemma head_app a b c : head a = Some c -> head (a ++ b) = Some c.
Proof. destruct a; [discriminate|]. exact (fun H => H). Qed.
Lemma head_fold {A} (f : bytes -> A -> bytes) (l : list A) c : (forall d x, head d = Some c -> head (f d x) = Some c) ->
  forall d, head d = Some c -> head (fold_left f l d) = Some c.
Proof. intros F. induction l as [|x l IH]; intros d H; cbn [fold_left]; [exact H|]. apply IH, F, H. Qed.
Lemma head_value E v d c : head d = Some c -> head (Value2MsgPack E v d) = Some c.
Proof. rewrite C03_append_only. apply head_app. Qed.
Definition writes (k : mkind) (b : bytes) : Prop := exists c, head b = Some c /\ byte_ok c /\ spec_kind c = k.
Lemma writes_app k a b : writes k a -> writes k (a ++ b).
Proof. intros (c & H & B & K). exists c. split; [apply head_app, H|auto]. Qed.
Ltac wcase c := exists c; split; [reflexivity|]; split; [unfold byte_ok; lia|reflexivity].
Lemma int_writes n : writes MInt (writeInt n []).
Proof.
  unfold writeInt. cbn [app]. destruct (Z.leb_spec 0 n).
  - destruct (Z.leb_spec n 127); [|destruct (n <=? 255); [wcase 204|]; destruct (n <=? 65535); [wcase 205|]; destruct (n <=? 4294967295); [wcase 206|wcase 207]].
    exists n. unfold byte_of. rewrite Z.mod_small by lia. split; [reflexivity|]. split; [unfold byte_ok; lia|]. unfold spec_kind. destruct (Z.ltb_spec n 128); [reflexivity|lia].
  - destruct (Z.leb_spec (-32) n); [|destruct (-128 <=? n); [wcase 208|]; destruct (-32768 <=? n); [wcase 209|]; destruct (-2147483648 <=? n); [wcase 210|wcase 211]].
    exists (n + 256). unfold byte_of. replace (n mod 256) with (n + 256) by (rewrite <- (Z.mod_small (n + 256) 256) by lia; rewrite <- Z.add_mod_idemp_r, Z.mod_same, Z.add_0_r by lia; reflexivity).
    split; [reflexivity|]. split; [unfold byte_ok; lia|]. unfold spec_kind. repeat match goal with |- context[?a <? ?b] => destruct (Z.ltb_spec a b); try lia end. reflexivity.
Qed.
Lemma str_writes n : 0 <= n -> writes MStr (writeStrCode n []).
Proof.
  intros N. unfold writeStrCode. cbn [app]. destruct (Z.ltb_spec n 32); [|destruct (n <? 256); [wcase 217|]; destruct (n <? 65536); [wcase 218|wcase 219]].
  exists (160 + n). split; [reflexivity|]. split; [unfold byte_ok; lia|]. unfold spec_kind. repeat match goal with |- context[?a <? ?b] => destruct (Z.ltb_spec a b); try lia end. reflexivity.
Qed.
Lemma map_writes n : 0 <= n -> writes MMap (writeMapCode n []).
Proof.
  intros N. unfold writeMapCode. cbn [app]. destruct (Z.ltb_spec n 16); [|destruct (n <? 65536); [wcase 222|wcase 223]].
  exists (128 + n). split; [reflexivity|]. split; [unfold byte_ok; lia|]. unfold spec_kind. repeat match goal with |- context[?a <? ?b] => destruct (Z.ltb_spec a b); try lia end. reflexivity.
Qed.
Lemma arr_writes n : 0 <= n -> writes MArr (writeArrayCode n []).
Proof.
  intros N. unfold writeArrayCode. cbn [app]. destruct (Z.ltb_spec n 16); [|destruct (n <? 65536); [wcase 220|wcase 221]].
  exists (144 + n). split; [reflexivity|]. split; [unfold byte_ok; lia|]. unfold spec_kind. repeat match goal with |- context[?a <? ?b] => destruct (Z.ltb_spec a b); try lia end. reflexivity.
Qed.
Lemma bin_writes n : writes MBin (writeBinCode n []).
Proof. unfold writeBinCode. cbn [app]. destruct (n <? 256); [wcase 196|]. destruct (n <? 65536); [wcase 197|wcase 198]. Qed.
(** [getExtcode] names the code that [writeExtCode] writes first, and an extension code always. *)
Theorem C99_extcode : forall n, head (writeExtCode n []) = Some (getExtcode n) /\ IsExt (getExtcode n) = true.
Proof.
  intros n. unfold writeExtCode, getExtcode. cbn [app].
  destruct (n =? 1); [split; [destruct (n <? 256); [reflexivity|destruct (n <? 65536); reflexivity]|reflexivity]|].
  destruct (n =? 2); [split; [destruct (n <? 256); [reflexivity|destruct (n <? 65536); reflexivity]|reflexivity]|].
  destruct (n =? 4); [split; [destruct (n <? 256); [reflexivity|destruct (n <? 65536); reflexivity]|reflexivity]|].
  destruct (n =? 8); [split; [destruct (n <? 256); [reflexivity|destruct (n <? 65536); reflexivity]|reflexivity]|].
  destruct (n =? 16); [split; [destruct (n <? 256); [reflexivity|destruct (n <? 65536); reflexivity]|reflexivity]|].
  destruct (n <? 256); [split; reflexivity|]. destruct (n <? 65536); split; reflexivity.
Qed.
Print Assumptions C99_extcode.
Lemma ext_writes n : writes MExt (writeExtCode n []).
Proof.
  destruct (C99_extcode n) as [H K]. exists (getExtcode n). split; [exact H|].
  assert (B : byte_ok (getExtcode n)) by (unfold byte_ok, getExtcode; codes; repeat match goal with |- context[if ?x then _ else _] => destruct x end; lia).
  split; [exact B|]. apply (C99_predicates _ B), K.
Qed.
(** Every value that has a MessagePack form is written with a type byte of its kind; nil pointers are written as nil. *)
Theorem C99_encode : forall E v k, kind_of v = Some k -> writes (match v with VNilP => MNil | _ => k end) (Value2MsgPack E v []).
Proof.
  intros E v k K. destruct v; cbn in K; try discriminate K; injection K as <-; cbn [Value2MsgPack app];
    try (apply writes_app, str_writes, zlen_nonneg); try (apply writes_app, bin_writes); try (apply writes_app, ext_writes); try apply int_writes.
  - wcase 192.
  - destruct (map_writes (zlen kvs) (zlen_nonneg _)) as (c & H & R). exists c. split; [|exact R]. apply head_fold; auto. intros d x HD. cbv zeta. apply head_value, head_app.
    destruct d; [discriminate|]. unfold writeStrCode. repeat match goal with |- context[if ?x then _ else _] => destruct x end; exact HD.
  - destruct (arr_writes (zlen l) (zlen_nonneg _)) as (c & H & R). exists c. split; [|exact R]. apply head_fold; auto. intros d x HD. apply head_value, HD.
  - wcase 202.
  - wcase 203.
  - unfold writeTime. destruct (x_totime E bits) as [u n]. cbv zeta. cbn [app]. destruct (_ =? 0); [destruct (_ =? 0); [wcase 214|wcase 215]|wcase 199].
  - wcase 192.
  - wcase 195.
  - wcase 194.
Qed.
Print Assumptions C99_encode.
Theorem C99_encode_none : forall E v, kind_of v = None -> Value2MsgPack E v [] = [].
Proof. intros E v K. destruct v; try discriminate K; reflexivity. Qed.
Print Assumptions C99_encode_none.

Definition e0 : env := env0 true.
Example C99_case : byte_ok 206 /\ NewValueFromMsgPack e0 [206; 0; 1; 0; 0] = Ok (VInt 0 65536) /\ IsInt 206 = true /\ spec_kind 206 = MInt /\
  IsExt 214 = true /\ parseExtLen 214 [255; 0; 0; 0; 1] = Ok (4, [255; 0; 0; 0; 1]) /\ IsTime 214 255 = true /\
  match NewValueFromMsgPack e0 [214; 255; 0; 0; 0; 1] with Ok (VDateTime _) => True | _ => False end /\
  NewValueFromMsgPack e0 [214; 7; 0; 0; 0; 1] = Ok (VExBinary 0 [7; 0; 0; 0; 1]) /\
  head (Value2MsgPack e0 (VInt 0 (-33)) []) = Some 208 /\ NewValueFromMsgPack e0 [193] = Ok VNilP /\ spec_kind 193 = MNone /\ getExtcode 300 = 200.
Proof. unfold byte_ok. repeat split; try lia; vm_compute; auto. Qed.
