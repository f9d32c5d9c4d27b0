(** The encoder appends, and what it appends conforms to the format table. *)
From Verif Require Import Base Values MsgPackModel MsgPackSpec Tactics MsgPackDecode.

Section Encode.
Context (E : env).

Lemma hdr_app (f : Z -> bytes -> bytes) :
  f = writeExtCode \/ f = writeBinCode \/ f = writeStrCode \/ f = writeMapCode \/ f = writeArrayCode
  \/ f = writeInt ->
  forall n dst, f n dst = dst ++ f n [].
Proof.
  intros H n dst.
  repeat destruct H as [H|H]; subst f;
  unfold writeExtCode, writeBinCode, writeStrCode, writeMapCode, writeArrayCode, writeInt;
  repeat match goal with |- context [if ?c then _ else _] => destruct c end;
  cbn [app]; rewrite <- ?app_assoc; reflexivity.
Qed.

Lemma str_app n dst : writeStrCode n dst = dst ++ writeStrCode n [].
Proof. apply hdr_app; auto 10. Qed.

Lemma writeTime_app t dst : writeTime t dst = dst ++ writeTime t [].
Proof. destruct t; unfold writeTime; repeat dgoal; reflexivity. Qed.

Lemma V2M_app v : forall dst, Value2MsgPack E v dst = dst ++ Value2MsgPack E v [].
Proof.
  induction v using value_ind'; intros dst; cbn [Value2MsgPack]; auto;
    try (rewrite app_nil_r; reflexivity).
  - rewrite (hdr_app writeMapCode) by auto.
    generalize (writeMapCode (zlen kvs) []) as h. intros h. cbn [app].
    revert dst h. induction H as [|[k x] l Hx Hl IH]; intros dst h; cbn [fold_left]; [reflexivity|].
    cbn [fst snd] in *. rewrite Hx. rewrite (Hx (writeStrCode (zlen k) h ++ k)).
    rewrite (str_app (zlen k) (dst ++ h)), (str_app (zlen k) h).
    rewrite <- !app_assoc. rewrite IH. reflexivity.
  - rewrite (hdr_app writeArrayCode) by auto 10.
    generalize (writeArrayCode (zlen l) []) as h. intros h.
    revert dst h. induction H as [|x l Hx Hl IH]; intros dst h; cbn [fold_left]; [reflexivity|].
    rewrite Hx, (Hx h). rewrite <- !app_assoc. rewrite IH. reflexivity.
  - rewrite str_app, <- app_assoc; reflexivity.
  - rewrite str_app, <- app_assoc; reflexivity.
  - apply hdr_app; auto 10.
  - apply writeTime_app.
  - rewrite (hdr_app writeBinCode), <- app_assoc by auto 10; reflexivity.
  - rewrite (hdr_app writeExtCode), <- app_assoc by auto 10; reflexivity.
Qed.

(** ** Header conformance *)
Lemma byte_of_ok n : byte_ok (byte_of n).
Proof. unfold byte_ok, byte_of. apply Z.mod_pos_bound; lia. Qed.

Lemma be1 n : 0 <= n < 2 ^ 8 -> be_num 1 [byte_of n] n.
Proof.
  intros H; repeat split; [repeat constructor; apply byte_of_ok|].
  cbv [big_endian fold_left]. unfold byte_of. lia.
Qed.
Lemma be2 n : be_num 2 [byte_of (n / 2 ^ 8); byte_of n] (n mod 2 ^ 16).
Proof.
  repeat split; [repeat (constructor; try apply byte_of_ok)|].
  cbv [big_endian fold_left]. unfold byte_of. lia.
Qed.
Lemma be4 n : be_num 4 (bytes4 n) (n mod 2 ^ 32).
Proof.
  repeat split; [repeat (constructor; try apply byte_of_ok)|].
  cbv [big_endian fold_left bytes4]. unfold byte_of.
  change (2 ^ 32) with (2 ^ 8 * (2 ^ 8 * (2 ^ 8 * 2 ^ 8))).
  rewrite !Z.rem_mul_r, !Z.div_div by lia.
  change (2 ^ 8 * 2 ^ 8) with (2 ^ 16). change (2 ^ 16 * 2 ^ 8) with (2 ^ 24).
  change (2 ^ 8) with 256. lia.
Qed.
Lemma be8 n : be_num 8 (bytes8 n) (n mod 2 ^ 64).
Proof.
  repeat split; [repeat (constructor; try apply byte_of_ok)|].
  cbv [big_endian fold_left bytes8]. unfold byte_of.
  change (2 ^ 64) with (2 ^ 8 * (2 ^ 8 * (2 ^ 8 * (2 ^ 8 * (2 ^ 8 * (2 ^ 8 * (2 ^ 8 * 2 ^ 8))))))).
  rewrite !Z.rem_mul_r, !Z.div_div by lia.
  change (2 ^ 8 * 2 ^ 8) with (2 ^ 16). change (2 ^ 16 * 2 ^ 8) with (2 ^ 24).
  change (2 ^ 24 * 2 ^ 8) with (2 ^ 32). change (2 ^ 32 * 2 ^ 8) with (2 ^ 40).
  change (2 ^ 40 * 2 ^ 8) with (2 ^ 48). change (2 ^ 48 * 2 ^ 8) with (2 ^ 56).
  change (2 ^ 8) with 256.
  generalize (n mod 256) (n / 256 mod 256) (n / 2 ^ 16 mod 256) (n / 2 ^ 24 mod 256)
    (n / 2 ^ 32 mod 256) (n / 2 ^ 40 mod 256) (n / 2 ^ 48 mod 256) (n / 2 ^ 56 mod 256).
  intros. lia.
Qed.
Lemma be2' n : 0 <= n < 2 ^ 16 -> be_num 2 [byte_of (n / 2 ^ 8); byte_of n] n.
Proof. intros H. pose proof (be2 n) as B. rewrite Z.mod_small in B by lia. exact B. Qed.
Lemma be4' n : 0 <= n < 2 ^ 32 -> be_num 4 (bytes4 n) n.
Proof. intros H. pose proof (be4 n) as B. rewrite Z.mod_small in B by lia. exact B. Qed.
Lemma be8' n : 0 <= n < 2 ^ 64 -> be_num 8 (bytes8 n) n.
Proof. intros H. pose proof (be8 n) as B. rewrite Z.mod_small in B by lia. exact B. Qed.

Lemma str_hdr_ok n : 0 <= n < 2 ^ 32 -> str_hdr n (writeStrCode n []).
Proof.
  intros H; unfold writeStrCode; cbn [app].
  destruct (n <? 32) eqn:?; [apply sh_fix; lia|].
  destruct (n <? 256) eqn:?; [apply sh_8, be1; lia|].
  destruct (n <? 65536) eqn:?; [apply sh_16, be2'; lia|apply sh_32, be4'; lia].
Qed.
Lemma bin_hdr_ok n : 0 <= n < 2 ^ 32 -> bin_hdr n (writeBinCode n []).
Proof.
  intros H; unfold writeBinCode; cbn [app].
  destruct (n <? 256) eqn:?; [apply bh_8, be1; lia|].
  destruct (n <? 65536) eqn:?; [apply bh_16, be2'; lia|apply bh_32, be4'; lia].
Qed.
Lemma map_hdr_ok n : 0 <= n < 2 ^ 32 -> map_hdr n (writeMapCode n []).
Proof.
  intros H; unfold writeMapCode; cbn [app].
  destruct (n <? 16) eqn:?; [apply mh_fix; lia|].
  destruct (n <? 65536) eqn:?; [apply mh_16, be2'; lia|apply mh_32, be4'; lia].
Qed.
Lemma arr_hdr_ok n : 0 <= n < 2 ^ 32 -> arr_hdr n (writeArrayCode n []).
Proof.
  intros H; unfold writeArrayCode; cbn [app].
  destruct (n <? 16) eqn:?; [apply ah_fix; lia|].
  destruct (n <? 65536) eqn:?; [apply ah_16, be2'; lia|apply ah_32, be4'; lia].
Qed.
Lemma ext_hdr_ok n : 0 <= n < 2 ^ 32 -> ~ In n [1; 2; 4; 8; 16] -> ext_hdr n (writeExtCode n []).
Proof.
  intros H Hn; unfold writeExtCode.
  assert (n <> 1 /\ n <> 2 /\ n <> 4 /\ n <> 8 /\ n <> 16) as (?&?&?&?&?)
    by (repeat split; intros ->; apply Hn; simpl; auto 10).
  replace (n =? 1) with false by lia. replace (n =? 2) with false by lia.
  replace (n =? 4) with false by lia. replace (n =? 8) with false by lia.
  replace (n =? 16) with false by lia. cbn [app].
  destruct (n <? 256) eqn:?; [apply eh_e8, be1; lia|].
  destruct (n <? 65536) eqn:?; [apply eh_e16, be2'; lia|apply eh_e32, be4'; lia].
Qed.

Lemma writeInt_ok n : i64_ok n -> int_wire n (writeInt n []).
Proof.
  unfold i64_ok; intros H; unfold writeInt; cbn [app].
  destruct (0 <=? n) eqn:?.
  { destruct (n <=? 127) eqn:?.
    { unfold byte_of. rewrite Z.mod_small by lia. apply iw_pos; lia. }
    destruct (n <=? 255) eqn:?; [apply iw_u8, be1; lia|].
    destruct (n <=? 65535) eqn:?; [apply iw_u16, be2'; lia|].
    destruct (n <=? 4294967295) eqn:?; [apply iw_u32, be4'; lia|apply iw_u64, be8'; lia]. }
  destruct (-32 <=? n) eqn:?.
  { unfold byte_of. replace (n mod 256) with (256 + n) by lia. apply iw_neg; lia. }
  destruct (-128 <=? n) eqn:?.
  { apply iw_i8 with (n + 2 ^ 8).
    - replace (byte_of n) with (byte_of (n + 2 ^ 8)) by (unfold byte_of; lia). apply be1; lia.
    - unfold signed; simpl Z.of_nat. zif. }
  destruct (-32768 <=? n) eqn:?.
  { eapply iw_i16; [apply be2|]. unfold signed; simpl Z.of_nat. zif. }
  destruct (-2147483648 <=? n) eqn:?.
  { eapply iw_i32; [apply be4|]. unfold signed; simpl Z.of_nat. zif. }
  eapply iw_i64; [apply be8|]. unfold signed; simpl Z.of_nat. zif.
Qed.

Lemma writeTime_ok sec nsec : i64_ok sec -> 0 <= nsec <= 999999999 ->
  time_wire sec nsec (writeTime (sec, nsec) []).
Proof.
  unfold i64_ok, writeTime, to_u64; intros Hs Hn. cbn [app].
  destruct (sec mod 2 ^ 64 / 2 ^ 34 =? 0) eqn:H1.
  - assert (Hsec : sec mod 2 ^ 64 = sec /\ 0 <= sec < 2 ^ 34) by lia.
    destruct Hsec as [-> Hsec].
    destruct ((nsec * 2 ^ 34 + sec) / 2 ^ 32 =? 0) eqn:H2.
    + assert (nsec = 0) by lia. subst nsec. cbn [Z.mul Z.add] in *.
      apply tw_32; auto. apply be4'; lia.
    + apply tw_64; auto. apply be8'; lia.
  - eapply tw_96; auto; [apply be4'; lia|apply be8|].
    unfold signed; simpl Z.of_nat. rewrite Z.mod_mod by lia. zif.
Qed.

(** ** Encoder conformance *)
Lemma opt_all_some {A B} (f : A -> option B) l ms :
  opt_all (map f l) = Some ms -> Forall2 (fun x m => f x = Some m) l ms.
Proof.
  revert ms; induction l as [|x l IH]; simpl; intros ms H.
  - inversion H; constructor.
  - destruct (f x) eqn:Hf; [|discriminate].
    destruct (opt_all (map f l)); [|discriminate]. inversion H; subst. constructor; auto.
Qed.

Theorem V2M_wire v : forall m, fits E v -> no_fixext v -> message_of E v = Some m ->
  wire m (Value2MsgPack E v []).
Proof.
  induction v using value_ind'; intros m Hf Hx Hm; cbn [message_of Value2MsgPack fits no_fixext] in *;
    try discriminate; try (inversion Hm; subst; cbn [app]; constructor; fail).
  - destruct Hf as [Hlen Hf].
    destruct (opt_all _) as [ms|] eqn:Ho; [|discriminate]. inversion Hm; subst; clear Hm.
    apply opt_all_some in Ho.
    assert (Hbody : exists b, kwires ms b /\
      fold_left (fun dst kv => Value2MsgPack E (snd kv) (writeStrCode (zlen (fst kv)) dst ++ fst kv))
        kvs (writeMapCode (zlen kvs) []) = writeMapCode (zlen kvs) [] ++ b).
    { clear Hlen. generalize (writeMapCode (zlen kvs) []) as h. revert ms Ho Hf Hx.
      induction H as [|[k x] l Hk Hl IH]; intros ms Ho Hf Hx h; inversion Ho; subst; cbn [fold_left].
      - exists []; split; [constructor|rewrite app_nil_r; reflexivity].
      - cbn [fold_right fst snd] in *. destruct Hf as ([Hk1 Hk2] & Hfx & Hfl). destruct Hx as [Hxx Hxl].
        destruct (message_of E x) as [mx|] eqn:Hmx; [|discriminate].
        match goal with H : option_map _ _ = Some _ |- _ => inversion H; subst end.
        match goal with HF : Forall2 _ l _ |- _ => rename HF into HF2 end.
        destruct (IH _ HF2 Hfl Hxl (Value2MsgPack E x (writeStrCode (zlen k) h ++ k))) as (b & Hb & Heq).
        exists (writeStrCode (zlen k) [] ++ k ++ Value2MsgPack E x [] ++ b). split.
        + constructor; auto. apply str_hdr_ok. pose proof (zlen_nonneg k); lia.
        + rewrite Heq, V2M_app, (str_app (zlen k) h). rewrite <- !app_assoc. reflexivity. }
    destruct Hbody as (b & Hb & ->). constructor; auto.
    rewrite <- (Forall2_zlen _ _ _ Ho).
    apply map_hdr_ok. pose proof (zlen_nonneg kvs); lia.
  - destruct Hf as [Hlen Hf].
    destruct (opt_all _) as [ms|] eqn:Ho; [|discriminate]. inversion Hm; subst; clear Hm.
    apply opt_all_some in Ho.
    assert (Hbody : exists b, wires ms b /\
      fold_left (fun dst x => Value2MsgPack E x dst) l (writeArrayCode (zlen l) [])
        = writeArrayCode (zlen l) [] ++ b).
    { clear Hlen. generalize (writeArrayCode (zlen l) []) as h. revert ms Ho Hf Hx.
      induction H as [|x l Hk Hl IH]; intros ms Ho Hf Hx h; inversion Ho; subst; cbn [fold_left].
      - exists []; split; [constructor|rewrite app_nil_r; reflexivity].
      - cbn [fold_right] in *. destruct Hf as [Hfx Hfl]. destruct Hx as [Hxx Hxl].
        match goal with HF : Forall2 _ l _ |- _ => rename HF into HF2 end.
        destruct (IH _ HF2 Hfl Hxl (Value2MsgPack E x h)) as (b & Hb & Heq).
        exists (Value2MsgPack E x [] ++ b). split.
        + constructor; auto.
        + rewrite Heq, V2M_app. rewrite <- !app_assoc. reflexivity. }
    destruct Hbody as (b & Hb & ->). constructor; auto.
    rewrite <- (Forall2_zlen _ _ _ Ho).
    apply arr_hdr_ok. pose proof (zlen_nonneg l); lia.
  - inversion Hm; subst. constructor; [apply Hf|]. apply str_hdr_ok. pose proof (zlen_nonneg s); lia.
  - inversion Hm; subst. constructor; [apply Hf|]. apply str_hdr_ok. pose proof (zlen_nonneg s); lia.
  - inversion Hm; subst. constructor. apply writeInt_ok; auto.
  - inversion Hm; subst. cbn [app]. constructor. apply be4'. apply Z.mod_pos_bound; lia.
  - inversion Hm; subst. cbn [app]. constructor. apply be8'; lia.
  - destruct (x_totime E r) as [sec nsec] eqn:Ht. inversion Hm; subst. cbn [fst snd] in Hf.
    constructor. apply writeTime_ok; tauto.
  - inversion Hm; subst. constructor; [apply Hf|]. apply bin_hdr_ok. pose proof (zlen_nonneg b); lia.
  - destruct b as [|t p]; [discriminate|]. inversion Hm; subst. destruct Hf as [Hb Hl].
    rewrite zlen_cons in Hl. inversion Hb; subst.
    constructor; auto. apply ext_hdr_ok; auto. pose proof (zlen_nonneg p); lia.
Qed.
End Encode.
