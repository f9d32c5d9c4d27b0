(** Lemmas behind the BSON properties. *)
From Verif Require Import Base Values BsonModel BsonSpec Tactics MsgPackSpec MsgPackDecode MsgPackThms.

(** ** Little-endian numbers *)
Lemma le_bytes_len w n : length (le_bytes w n) = w.
Proof. revert n; induction w; simpl; auto. Qed.
Lemma le_val_bytes w n : le_val (le_bytes w n) = n mod 256 ^ Z.of_nat w.
Proof.
  revert n; induction w as [|w IH]; intros n; simpl le_bytes; cbn [le_val].
  - simpl Z.of_nat. rewrite Z.pow_0_r, Z.mod_1_r; reflexivity.
  - rewrite IH. rewrite Nat2Z.inj_succ, Z.pow_succ_r by lia.
    rewrite (Z.rem_mul_r n 256 (256 ^ Z.of_nat w)); try lia.
Qed.
Lemma le_bytes_mod w n : le_bytes w (n mod 256 ^ Z.of_nat w) = le_bytes w n.
Proof.
  revert n; induction w as [|w IH]; intros n; cbn [le_bytes]; auto.
  rewrite Nat2Z.inj_succ, Z.pow_succ_r by lia.
  assert (Hp : 0 < 256 ^ Z.of_nat w) by lia.
  rewrite (Z.rem_mul_r n 256 (256 ^ Z.of_nat w)) by lia.
  f_equal.
  - rewrite Z.mul_comm, Z.mod_add by lia. apply Z.mod_mod; lia.
  - rewrite <- (IH (n / 256)). f_equal.
    rewrite (Z.mul_comm 256), Z.div_add by lia.
    rewrite Z.div_small by (apply Z.mod_pos_bound; lia). lia.
Qed.
Lemma le_bytes_ok w n : bytes_ok (le_bytes w n).
Proof.
  revert n; induction w; intros n; simpl; constructor; [|apply IHw].
  unfold byte_ok; apply Z.mod_pos_bound; lia.
Qed.
Lemma le_val_nonneg b : bytes_ok b -> 0 <= le_val b.
Proof. induction 1; cbn [le_val]; unfold byte_ok in *; lia. Qed.

Lemma take_app n a r : length a = n -> take n (a ++ r) = Ok a.
Proof.
  intros <-. unfold take. rewrite app_length.
  destruct (Nat.leb_spec (length a) (length a + length r)); [|lia].
  rewrite firstn_app, firstn_all, Nat.sub_diag; simpl; rewrite app_nil_r; reflexivity.
Qed.
Lemma le32_app n r : le32 (le_bytes 4 n ++ r) = Ok (n mod 2 ^ 32).
Proof.
  unfold le32; rewrite take_app by apply le_bytes_len; cbn [bind].
  rewrite le_val_bytes; reflexivity.
Qed.
Lemma le64_app n r : le64 (le_bytes 8 n ++ r) = Ok (n mod 2 ^ 64).
Proof.
  unfold le64; rewrite take_app by apply le_bytes_len; cbn [bind].
  rewrite le_val_bytes; reflexivity.
Qed.
Lemma take_some n b x : take n b = Ok x -> x = firstn n b /\ (n <= length b)%nat.
Proof. unfold take; destruct (Nat.leb_spec n (length b)); intros H'; inversion H'; auto. Qed.
Lemma firstn_ok n b : bytes_ok b -> bytes_ok (firstn n b).
Proof. intros H; revert n; induction H; intros [|n]; simpl; constructor; auto; apply IHForall. Qed.
Lemma skipn_ok n b : bytes_ok b -> bytes_ok (skipn n b).
Proof. intros H; revert n; induction H; intros [|n]; simpl; auto; constructor; auto. Qed.
Lemma le32_nonneg b n : bytes_ok b -> le32 b = Ok n -> 0 <= n.
Proof.
  intros Hb H; unfold le32 in H; apply bind_ok in H as [x [Hx H]]; inversion H.
  apply take_some in Hx as [-> _]. apply le_val_nonneg, firstn_ok, Hb.
Qed.
Lemma index_byte_le b c n : index_byte b c = Some n -> (n < length b)%nat.
Proof.
  revert n; induction b as [|x b IH]; intros n; simpl; [discriminate|].
  destruct (x =? c); intros H; [inversion H; lia|].
  destruct (index_byte b c); inversion H; subst. specialize (IH n0 eq_refl); lia.
Qed.
Lemma index_byte_app k r : no_nul k -> index_byte (k ++ 0 :: r) 0 = Some (length k).
Proof.
  unfold no_nul; induction k as [|x k IH]; simpl; intros H; auto.
  destruct (x =? 0) eqn:Hx; [exfalso; apply H; left; lia|].
  rewrite IH; auto.
Qed.

Lemma ok_pair {A B} (a c : A) (b d : B) : Ok (a, b) = Ok (c, d) -> a = c /\ b = d.
Proof. intros H; inversion H; auto. Qed.

(** ** Termination *)
Section Term.
Context (E : env).

Lemma bson_value_nofuel t b : bson_value E t b <> OutOfFuel.
Proof.
  unfold bson_value, le32, le64, take, bind.
  repeat (dgoal; try discriminate).
Qed.
Lemma bson_value_nonneg t b n v : bytes_ok b -> bson_value E t b = Ok (n, v) -> 0 <= n.
Proof.
  intros Hb; unfold bson_value; intros H.
  repeat match type of H with (if ?c then _ else _) = _ => destruct c eqn:? end;
  repeat match type of H with bind _ _ = _ => let x := fresh "x" in apply bind_ok in H as [x [? H]] end;
  try (inversion H; subst; lia); try discriminate.
  - match type of H with (if ?c then _ else _) = _ => destruct c eqn:? end; [discriminate|].
    apply bind_ok in H as [? [? H]]; apply ok_pair in H as [<- _]; lia.
  - destruct (skipn 4 b) as [|sub b1] eqn:Hs; [discriminate|].
    assert (Hb1 : bytes_ok (sub :: b1)) by (rewrite <- Hs; apply skipn_ok, Hb).
    destruct (sub =? 2).
    + destruct (_ <? _)%nat; [discriminate|].
      apply bind_ok in H as [m [Hm H]].
      apply le32_nonneg in Hm; [|apply skipn_ok, Hb1].
      destruct (_ <? _)%nat; [discriminate|]. destruct (_ <? _); [discriminate|].
      apply bind_ok in H as [? [? H]]; apply ok_pair in H as [<- _]; lia.
    + apply bind_ok in H as [y [? H]].
      match goal with H1 : le32 b = Ok _ |- _ => apply le32_nonneg in H1; auto end.
      apply ok_pair in H as [<- _]; lia.
  - destruct b; inversion H; subst; lia.
Qed.

Lemma bs_doc_nonneg f arr b doc n v : bytes_ok b -> bs_doc E f arr b doc = Ok (n, v) -> 0 <= n.
Proof.
  intros Hb; destruct f; simpl; [discriminate|].
  destruct (negb arr && _); [discriminate|]. intros H.
  apply bind_ok in H as [m [Hm H]]. apply le32_nonneg in Hm; auto.
  destruct (_ <? _); [discriminate|]. apply bind_ok in H as [? [? H]]; inversion H; subst; auto.
Qed.

Lemma bs_enough : forall f,
  (forall arr b doc, bytes_ok b -> (2 * length b + 2 <= f)%nat -> bs_doc E f arr b doc <> OutOfFuel) /\
  (forall arr b docLen idx doc, bytes_ok b -> 4 <= idx -> docLen <= zlen b -> (1 <= f)%nat ->
     2 * (zlen b - idx) + 1 <= Z.of_nat f -> bs_loop E f arr b docLen idx doc <> OutOfFuel).
Proof.
  induction f as [|f [IHd IHl]]; [split; intros; lia|]. split.
  - intros arr b doc Hb Hf. cbn [bs_doc].
    destruct (negb arr && _); [discriminate|].
    destruct (le32 b) as [docLen| | |] eqn:Hl; simpl; try discriminate;
      [|unfold le32, take in Hl; destruct (_ <=? _)%nat; discriminate].
    destruct (Z.ltb_spec (zlen b) docLen); [discriminate|].
    assert (bs_loop E f arr b docLen 4 doc <> OutOfFuel).
    { apply IHl; auto; try lia. unfold zlen in *; lia. }
    destruct (bs_loop E f arr b docLen 4 doc); simpl; congruence.
  - intros arr b docLen idx doc Hb Hi Hd H1 Hf. cbn [bs_loop].
    destruct (Z.leb_spec docLen idx); [discriminate|].
    destruct (skipn (Z.to_nat idx) b) as [|t b1] eqn:Hs; [discriminate|].
    assert (Hb1 : bytes_ok (t :: b1)) by (rewrite <- Hs; apply skipn_ok, Hb).
    assert (Hlen : zlen b = idx + 1 + zlen b1).
    { assert (length (t :: b1) = length b - Z.to_nat idx)%nat by (rewrite <- Hs; apply skipn_length).
      unfold zlen in *; simpl in *; lia. }
    inversion Hb1; subst.
    destruct (index_byte b1 0) as [ke|] eqn:Hk; [|discriminate].
    apply index_byte_le in Hk.
    match goal with |- (if ?c then _ else _) <> _ => destruct c; [discriminate|] end.
    set (key := firstn ke b1). set (ai := if arr then _ else _).
    assert (Hb2 : bytes_ok (skipn (S ke) b1)) by (apply skipn_ok; auto).
    assert (Hf2 : (2 * length (skipn (S ke) b1) + 2 <= f)%nat).
    { rewrite skipn_length. unfold zlen in *; lia. }
    assert (Hcont : forall n x, 0 <= n ->
      (let doc' := store_at E doc key ai x in
       let idx' := idx + 1 + Z.of_nat ke + 1 + n in
       if (idx' =? docLen - 1) && match nth_error b (Z.to_nat idx') with Some 0 => true | _ => false end
       then Ok doc' else bs_loop E f arr b docLen idx' doc') <> OutOfFuel).
    { intros n x Hn. cbv zeta. destruct (_ && _); [discriminate|].
      apply IHl; auto; try lia. }
    destruct (t =? BSON_Array); [|destruct (t =? BSON_EmbeddedDocument)].
    + destruct (bs_doc E f true _ _) as [[n x]| | |] eqn:Hr; try discriminate.
      * apply bs_doc_nonneg in Hr; auto. apply Hcont; auto.
      * exfalso; revert Hr; apply IHd; auto.
    + destruct (bs_doc E f false _ _) as [[n x]| | |] eqn:Hr; try discriminate.
      * apply bs_doc_nonneg in Hr; auto. apply Hcont; auto.
      * exfalso; revert Hr; apply IHd; auto.
    + destruct (bson_value E t _) as [[n x]| | |] eqn:Hr; try discriminate.
      * apply bson_value_nonneg in Hr; auto. apply Hcont; auto.
      * exfalso; revert Hr; apply bson_value_nofuel.
Qed.

Theorem bson_total b : bytes_ok b -> NewValueFromBson E b <> OutOfFuel.
Proof.
  intros Hb. unfold NewValueFromBson.
  assert (bs_doc E (bs_fuel b) false b (VObject false []) <> OutOfFuel)
    by (apply bs_enough; auto; unfold bs_fuel; lia).
  destruct (bs_doc E _ _ _ _) as [[? ?]| | |]; simpl; congruence.
Qed.
End Term.
