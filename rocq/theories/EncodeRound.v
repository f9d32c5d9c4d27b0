(** Encoded bytes are bytes; encoders and escapes; round trips through memory. *)
From Verif Require Import Base Values Tactics MsgPackModel BsonModel MsgPackSpec MsgPackEncode BsonSpec BsonThms BsonRound BsonEncode.
From Verif Require Import HeapModel HeapSpec HeapBase HeapConf HeapGet HeapClone HeapEqual EncodeModel EncodeThms EncodeRead.

(** ** Encoded bytes *)
Lemma be_num_bytes w p n : be_num w p n -> bytes_ok p.
Proof. intros (_ & B & _). exact B. Qed.
Ltac byt := unfold bytes_ok, byte_ok in *; repeat (apply Forall_cons || apply Forall_nil || apply Forall_app; try split); try lia.
Lemma str_hdr_bytes n h : str_hdr n h -> bytes_ok h.
Proof. intros H; inversion H; subst; try (apply be_num_bytes in H0); byt; auto. Qed.
Lemma wire_bytes : (forall m b, wire m b -> bytes_ok b) /\ (forall l b, wires l b -> bytes_ok b) /\ (forall l b, kwires l b -> bytes_ok b).
Proof.
  assert (B1 : forall x, 0 <= x < 256 -> byte_ok x) by (unfold byte_ok; auto).
  assert (CC : forall x p, 0 <= x < 256 -> bytes_ok p -> bytes_ok (x :: p)) by (intros; constructor; auto).
  assert (AA : forall p q, bytes_ok p -> bytes_ok q -> bytes_ok (p ++ q)) by (intros; apply Forall_app; auto).
  assert (N0 : bytes_ok []) by constructor.
  apply wire_mutind; intros; auto.
  all: repeat match goal with
    | H : be_num _ _ _ |- _ => apply be_num_bytes in H
    | H : str_hdr _ _ |- _ => apply str_hdr_bytes in H
    | H : int_wire _ _ |- _ => inversion H; subst; clear H
    | H : time_wire _ _ _ |- _ => inversion H; subst; clear H
    | H : bin_hdr _ _ |- _ => inversion H; subst; clear H
    | H : ext_hdr _ _ |- _ => inversion H; subst; clear H
    | H : arr_hdr _ _ |- _ => inversion H; subst; clear H
    | H : map_hdr _ _ |- _ => inversion H; subst; clear H
    end.
  all: repeat first [assumption | apply AA | apply CC; [try lia|] | apply N0].
  all: unfold byte_ok in *; lia.
Qed.
Lemma msgpack_bytes E v m : fits E v -> no_fixext v -> message_of E v = Some m -> bytes_ok (Value2MsgPack E v []).
Proof. intros A B C. eapply (proj1 wire_bytes). apply V2M_wire; eauto. Qed.

Lemma dec_digits_ok f : forall n acc, 0 <= n -> bytes_ok acc -> bytes_ok (dec_digits f n acc).
Proof.
  induction f as [|f IH]; intros n acc H A; cbn [dec_digits]; [exact A|].
  destruct (Z.ltb_spec n 10); [constructor; [unfold byte_ok; lia|exact A]|].
  apply IH; [apply Z.div_pos; lia|]. constructor; [unfold byte_ok; lia|exact A].
Qed.
Lemma fmt_int_ok n : bytes_ok (fmt_int n).
Proof.
  unfold fmt_int, dec_nat. destruct (Z.ltb_spec n 0); [constructor; [unfold byte_ok; lia|]|]; apply dec_digits_ok; try lia; constructor.
Qed.
Lemma btag_ok m : byte_ok (btag m).
Proof. destruct m; unfold byte_ok; cbn; lia. Qed.
Lemma payload_bytes m : bwf m -> bytes_ok (payload m).
Proof.
  assert (CC : forall x p, byte_ok x -> bytes_ok p -> bytes_ok (x :: p)) by (intros; constructor; auto).
  assert (AA : forall p q, bytes_ok p -> bytes_ok q -> bytes_ok (p ++ q)) by (intros; apply Forall_app; auto).
  assert (Z0 : byte_ok 0) by (unfold byte_ok; lia).
  assert (N0 : bytes_ok [0]) by (constructor; [auto|constructor]).
  assert (FR : forall b, bytes_ok b -> bytes_ok (frame b)).
  { intros b B. unfold frame, le. repeat apply AA; auto. apply le_bytes_ok. }
  induction m using bval_ind'; cbn [payload bwf]; intros W; unfold le; try apply le_bytes_ok;
    repeat match goal with H : _ /\ _ |- _ => destruct H end; auto.
  all: try (repeat first [assumption | apply le_bytes_ok | apply AA | apply CC]; fail).
  all: try (apply FR).
  all: try (constructor; fail).
  - induction H as [|kv kvs H1 H2 IH]; cbn [map concat fold_right] in *; [constructor|]. destruct W as ((A & _) & B & C).
    apply AA; [|auto]. apply CC; [apply btag_ok|]. apply AA; [exact A|]. apply CC; auto.
  - match goal with |- bytes_ok (concat (?f 0 l)) => assert (X : forall i, bytes_ok (concat (f i l))); [|apply X] end.
    induction H as [|x l H1 H2 IH]; intros i; cbn [concat fold_right] in *; [constructor|]. destruct W as (A & B).
    apply AA; [|auto]. apply CC; [apply btag_ok|]. apply AA; [apply fmt_int_ok|]. apply CC; auto.
  - destruct b; (apply CC; [unfold byte_ok; lia|constructor]).
Qed.

(** ** Encoders and escapes *)
Section Escapes.
Variable E : env.
Lemma type_read_out v dst : writeBsonElementType (read_out E v) dst = writeBsonElementType v dst.
Proof. destruct v; reflexivity. Qed.
Lemma ToBson_slot x d : (forall d, ToBson E (read_out E x) d = ToBson E x d) ->
  match read_out E x with VNilP => Ok d | _ => ToBson E (read_out E x) d end = match x with VNilP => Ok d | _ => ToBson E x d end.
Proof. intros H. destruct x; try reflexivity; exact (H d). Qed.
Lemma ToBson_read_out v : forall dst, ToBson E (read_out E v) dst = ToBson E v dst.
Proof.
  induction v using value_ind'; intros dst; try reflexivity; cbn [read_out].
  - rewrite !ToBson_obj. match goal with |- bind ?a _ = bind ?b _ => assert (X : a = b); [|rewrite X; reflexivity] end.
    generalize (dst ++ [0; 0; 0; 0]). induction H as [|[k x] kvs H1 H2 IH]; intros d; cbn [map]; [reflexivity|].
    cbn [fst snd] in *. rewrite !tb_kvs_cons, !type_read_out, ToBson_slot by auto. apply bind_ext. auto.
  - rewrite !ToBson_arr. match goal with |- bind ?a _ = bind ?b _ => assert (X : a = b); [|rewrite X; reflexivity] end.
    generalize (dst ++ [0; 0; 0; 0]). generalize 0. induction H as [|x kvs H1 H2 IH]; intros i d; cbn [map tb_arr]; [reflexivity|].
    cbv zeta. rewrite !type_read_out, ToBson_slot by auto. apply bind_ext. auto.
Qed.
Theorem bson_reads v dst : Value2Bson E (read_out E v) dst = Value2Bson E v dst.
Proof. pose proof (ToBson_read_out v dst) as H. destruct v; try reflexivity; exact H. Qed.

(** What the MsgPack encoder takes strings and keys for: their stored bytes, escapes unresolved. *)
Fixpoint as_stored (v : value) : value :=
  match v with
  | VObject u kvs => VObject (negb (match kvs with [] => true | _ => false end)) (map (fun kv => (fst kv, as_stored (snd kv))) kvs)
  | VArray l => VArray (map as_stored l)
  | VRawString x => VString x
  | _ => v
  end.
Lemma zlen_map {A B} (f : A -> B) l : zlen (map f l) = zlen l.
Proof. unfold zlen. rewrite map_length. reflexivity. Qed.
Lemma msgpack_stored v : forall dst, Value2MsgPack E (as_stored v) dst = Value2MsgPack E v dst.
Proof.
  induction v using value_ind'; intros dst; try reflexivity; cbn [as_stored Value2MsgPack].
  - rewrite zlen_map. generalize (writeMapCode (zlen kvs) dst). induction H as [|kv kvs H1 H2 IH]; intros d; cbn [map fold_left fst snd]; [reflexivity|].
    rewrite H1. apply IH.
  - rewrite zlen_map. generalize (writeArrayCode (zlen l) dst). induction H as [|kv kvs H1 H2 IH]; intros d; cbn [map fold_left fst snd]; [reflexivity|].
    rewrite H1. apply IH.
Qed.
End Escapes.
