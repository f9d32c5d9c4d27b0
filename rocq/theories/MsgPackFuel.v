(** The MessagePack decoder never runs out of fuel; fuel-free recursion equations. *)
From Verif Require Import Base Values MsgPackModel Tactics.

Section Fuel.
Context (E : env).

Lemma parseUint8_len b n t : parseUint8 b = Ok (n, t) -> length b = (1 + length t)%nat.
Proof. destruct b; simpl; intros H; inversion H; subst; simpl; lia. Qed.
Lemma parseUint16_len b n t : parseUint16 b = Ok (n, t) -> length b = (2 + length t)%nat.
Proof. do 2 (destruct b; [discriminate|]); intros H; inversion H; subst; simpl; lia. Qed.
Lemma parseUint32_len b n t : parseUint32 b = Ok (n, t) -> length b = (4 + length t)%nat.
Proof. do 4 (destruct b; [discriminate|]); intros H; inversion H; subst; simpl; lia. Qed.
Lemma parseUint64_len b n t : parseUint64 b = Ok (n, t) -> length b = (8 + length t)%nat.
Proof. do 8 (destruct b; [discriminate|]); intros H; inversion H; subst; simpl; lia. Qed.

Ltac ulen := repeat match goal with
  | H : parseUint8 _ = Ok (_, _) |- _ => apply parseUint8_len in H
  | H : parseUint16 _ = Ok (_, _) |- _ => apply parseUint16_len in H
  | H : parseUint32 _ = Ok (_, _) |- _ => apply parseUint32_len in H
  | H : parseUint64 _ = Ok (_, _) |- _ => apply parseUint64_len in H
  end.

Lemma parseLen_len c b n t : parseLen c b = Ok (n, t) -> (length t <= length b)%nat.
Proof.
  unfold parseLen; intros H.
  repeat dhyp H; ulen; try discriminate; try lia. inversion H; subst; lia.
Qed.
Lemma parseExtLen_len c b n t : parseExtLen c b = Ok (n, t) -> (length t <= length b)%nat.
Proof.
  unfold parseExtLen; intros H.
  repeat dhyp H; ulen; try discriminate; try (inversion H; subst; lia).
Qed.
Lemma parseMapLen_len c b n t : parseMapLen c b = Ok (n, t) -> (length t <= length b)%nat.
Proof.
  unfold parseMapLen; intros H.
  repeat dhyp H; try discriminate; inversion H; subst; ulen; try lia.
Qed.
Lemma parseArrLen_len c b n t : parseArrLen c b = Ok (n, t) -> (length t <= length b)%nat.
Proof.
  unfold parseArrLen; intros H.
  repeat dhyp H; try discriminate; ulen; try lia; inversion H; subst; lia.
Qed.
Lemma parseStr_len c b s t : parseStr c b = Ok (s, t) -> (length t <= length b)%nat.
Proof.
  unfold parseStr; intros H.
  destruct (parseLen c b) as [[n b']| | |] eqn:Hl; try discriminate.
  apply parseLen_len in Hl.
  repeat dhyp H; try discriminate; inversion H; subst; try lia.
  rewrite skipn_length; lia.
Qed.
Lemma parseExt_len c b v t : parseExt E c b = Ok (v, t) -> (length t <= length b)%nat.
Proof.
  unfold parseExt; intros H.
  apply bind_ok in H as [[n b'] [Hl H]]. apply parseExtLen_len in Hl.
  assert (Hs : (length (skipn (Z.to_nat (n + 1)) b') <= length b')%nat)
    by (rewrite skipn_length; lia).
  repeat dhyp H; try discriminate;
    repeat (apply bind_ok in H as [? [? H]]);
    try (inversion H; subst; lia).
Qed.
Lemma parseScalar_len c b v t : parseScalar E c b = Ok (v, t) -> (length t <= length b)%nat.
Proof.
  unfold parseScalar; intros H.
  repeat (match type of H with
   | (if ?x then _ else _) = _ => destruct x eqn:?
   end);
  repeat match type of H with
  | bind _ _ = Ok _ => let p := fresh "p" in apply bind_ok in H as [p [? H]]; destruct p
  end;
  try (inversion H; subst; ulen; simpl; lia);
  try (inversion H; subst; eapply parseStr_len; eassumption);
  try (eapply parseExt_len; eassumption).
  destruct (_ <=? _); inversion H; subst.
  rewrite skipn_length.
  match goal with H : parseLen _ _ = _ |- _ => apply parseLen_len in H end. lia.
Qed.

(** Output is never longer than input. *)
Lemma mp_len : forall f,
  (forall b v t, mp_value E f b = Ok (v, t) -> (length t < length b)%nat) /\
  (forall n b acc v t, mp_array E f n b acc = Ok (v, t) -> (length t <= length b)%nat) /\
  (forall n b acc v t, mp_map E f n b acc = Ok (v, t) -> (length t <= length b)%nat).
Proof.
  induction f as [|f (IV & IA & IM)]; [repeat split; discriminate|].
  repeat split; cbn [mp_value mp_array mp_map].
  - intros [|c b] v t H; [discriminate|]. cbn [length].
    destruct (IsStr c); [apply parseScalar_len in H; lia|].
    destruct (IsArray c).
    { apply bind_ok in H as [[n b'] [Hl H]]. apply parseArrLen_len in Hl.
      destruct (n =? 0); [inversion H; subst; lia|]. apply IA in H; lia. }
    destruct (IsMap c).
    { apply bind_ok in H as [[n b'] [Hl H]]. apply parseMapLen_len in Hl.
      destruct (n =? 0); [inversion H; subst; lia|].
      destruct b'; [discriminate|]. destruct (IsStr z); [|discriminate].
      apply IM in H; lia. }
    apply parseScalar_len in H; lia.
  - intros n b acc v t H. destruct (n <=? 0); [inversion H; subst; lia|].
    apply bind_ok in H as [[x b'] [Hv H]]. apply IV in Hv. apply IA in H. lia.
  - intros n b acc v t H. destruct (n <=? 0); [inversion H; subst; lia|].
    destruct b as [|c b]; [discriminate|]. cbn [length].
    apply bind_ok in H as [[k b'] [Hk H]]. apply parseStr_len in Hk.
    apply bind_ok in H as [[x b''] [Hv H]]. apply IV in Hv. apply IM in H. lia.
Qed.

(** More fuel does not change an answer. *)
Lemma bind_mono {A B} (r r' : res A) (f f' : A -> res B) :
  (r <> OutOfFuel -> r' = r) ->
  (forall a, r = Ok a -> f a <> OutOfFuel -> f' a = f a) ->
  bind r f <> OutOfFuel -> bind r' f' = bind r f.
Proof.
  intros Hr Hf H. destruct r; simpl in *; try (rewrite Hr by discriminate; reflexivity).
  - rewrite Hr by discriminate. simpl. auto.
  - congruence.
Qed.

Lemma parseScalar_nofuel c b : parseScalar E c b <> OutOfFuel.
Proof.
  unfold parseScalar, parseStr, parseExt, parseExtLen, parseLen, bind, be32, be64,
    parseUint8, parseUint16, parseUint32, parseUint64.
  repeat dgoal; discriminate.
Qed.
Lemma parseStr_nofuel c b : parseStr c b <> OutOfFuel.
Proof.
  unfold parseStr, parseLen, parseUint8, parseUint16, parseUint32. repeat dgoal; discriminate.
Qed.

Lemma mp_value_S f b : mp_value E (S f) b =
  match b with
  | [] => Err ErrUnKnownCode
  | code :: b =>
    if IsStr code then parseScalar E code b
    else if IsArray code then
      do (n, b) <- parseArrLen code b;
      if n =? 0 then Ok (VArray [], b) else mp_array E f n b []
    else if IsMap code then
      do (n, b) <- parseMapLen code b;
      if n =? 0 then Ok (VObject false [], b)
      else match b with
           | [] => Panic
           | c :: _ => if IsStr c then mp_map E f n b (VObject false [])
                       else Err ErrMapKey
           end
    else parseScalar E code b
  end.
Proof. reflexivity. Qed.
Lemma mp_array_S f n b acc : mp_array E (S f) n b acc =
  if n <=? 0 then Ok (VArray acc, b)
  else do (v, b) <- mp_value E f b; mp_array E f (n - 1) b (acc ++ [v]).
Proof. reflexivity. Qed.
Lemma mp_map_S f n b acc : mp_map E (S f) n b acc =
  if n <=? 0 then Ok (acc, b)
  else match b with
    | [] => Err ErrUnKnownCode
    | code :: b =>
        do (k, b) <- parseStr code b;
        do (v, b) <- mp_value E f b;
        mp_map E f (n - 1) b (set_key_value E acc k v)
    end.
Proof. reflexivity. Qed.

Lemma mp_mono : forall f,
  (forall b, mp_value E f b <> OutOfFuel -> mp_value E (S f) b = mp_value E f b) /\
  (forall n b acc, mp_array E f n b acc <> OutOfFuel ->
     mp_array E (S f) n b acc = mp_array E f n b acc) /\
  (forall n b acc, mp_map E f n b acc <> OutOfFuel ->
     mp_map E (S f) n b acc = mp_map E f n b acc).
Proof.
  induction f as [|f (IV & IA & IM)].
  { repeat split; intros; exfalso; apply H; reflexivity. }
  repeat split.
  - intros b H. rewrite (mp_value_S (S f) b). rewrite (mp_value_S f b) in H |- *.
    destruct b as [|c b]; [reflexivity|].
    destruct (IsStr c); [reflexivity|].
    destruct (IsArray c).
    { apply bind_mono; auto. intros [n b'] Hl Hn.
      destruct (n =? 0); auto. }
    destruct (IsMap c); [|reflexivity].
    apply bind_mono; auto. intros [n b'] Hl Hn.
    destruct (n =? 0); auto. destruct b'; auto. destruct (IsStr z); auto.
  - intros n b acc H. rewrite (mp_array_S (S f) n b acc). rewrite (mp_array_S f n b acc) in H |- *.
    destruct (n <=? 0); auto. apply bind_mono; auto. intros [v b'] _ Hn; auto.
  - intros n b acc H. rewrite (mp_map_S (S f) n b acc). rewrite (mp_map_S f n b acc) in H |- *.
    destruct (n <=? 0); auto. destruct b as [|c b]; auto.
    apply bind_mono; auto. intros [k b'] _ Hn. apply bind_mono; auto.
    intros [v b''] _ Hn'; auto.
Qed.

Lemma mp_enough : forall f,
  (forall b, (2 * length b + 1 <= f)%nat -> mp_value E f b <> OutOfFuel) /\
  (forall n b acc, (2 * length b + 2 <= f)%nat -> mp_array E f n b acc <> OutOfFuel) /\
  (forall n b acc, (2 * length b + 2 <= f)%nat -> mp_map E f n b acc <> OutOfFuel).
Proof.
  induction f as [|f (IV & IA & IM)]; [repeat split; intros; lia|].
  repeat split; cbn [mp_value mp_array mp_map].
  - intros [|c b] Hf; [discriminate|]. cbn [length] in Hf.
    destruct (IsStr c); [apply parseScalar_nofuel|].
    destruct (IsArray c).
    { destruct (parseArrLen c b) as [[n b']| | |] eqn:Hl; simpl; try discriminate.
      - apply parseArrLen_len in Hl. destruct (n =? 0); [discriminate|]. apply IA; lia.
      - exfalso; revert Hl; unfold parseArrLen, parseUint16, parseUint32.
        repeat dgoal; discriminate. }
    destruct (IsMap c); [|apply parseScalar_nofuel].
    destruct (parseMapLen c b) as [[n b']| | |] eqn:Hl; simpl; try discriminate.
    + apply parseMapLen_len in Hl. destruct (n =? 0); [discriminate|].
      destruct b'; [discriminate|]. destruct (IsStr z); [|discriminate]. apply IM; lia.
    + exfalso; revert Hl; unfold parseMapLen, parseUint16, parseUint32.
      repeat dgoal; discriminate.
  - intros n b acc Hf. destruct (n <=? 0); [discriminate|].
    destruct (mp_value E f b) as [[v b']| | |] eqn:Hv; simpl; try discriminate.
    + apply (proj1 (mp_len f)) in Hv. apply IA; lia.
    + exfalso; apply (IV b); [lia|assumption].
  - intros n b acc Hf. destruct (n <=? 0); [discriminate|].
    destruct b as [|c b]; [discriminate|]. cbn [length] in Hf.
    destruct (parseStr c b) as [[k b']| | |] eqn:Hk; simpl; try discriminate.
    2:{ exfalso; eapply parseStr_nofuel; eauto. }
    apply parseStr_len in Hk.
    destruct (mp_value E f b') as [[v b'']| | |] eqn:Hv; simpl; try discriminate.
    + apply (proj1 (mp_len f)) in Hv. apply IM; lia.
    + exfalso; apply (IV b'); [lia|assumption].
Qed.

Lemma mono_le {A} (g : nat -> res A) f :
  (forall k, (f <= k)%nat -> g k <> OutOfFuel -> g (S k) = g k) ->
  g f <> OutOfFuel -> forall f', (f <= f')%nat -> g f' = g f.
Proof.
  intros Hs H f' Hle. induction Hle; auto. rewrite Hs; auto. rewrite IHHle; auto.
Qed.

(** Fuel-free decoders. *)
Definition dec (b : bytes) := mp_decode E b.
Definition decarr (n : Z) (b : bytes) acc := mp_array E (2 * length b + 2) n b acc.
Definition decmap (n : Z) (b : bytes) acc := mp_map E (2 * length b + 2) n b acc.

Lemma mp_value_dec f b : (2 * length b + 1 <= f)%nat -> mp_value E f b = dec b.
Proof.
  intros H. unfold dec, mp_decode, mp_fuel.
  assert (H0 := proj1 (mp_enough (2 * length b + 1)) b (le_n _)).
  transitivity (mp_value E (2 * length b + 1) b).
  - apply (mono_le (fun f => mp_value E f b)); auto. intros k _; apply mp_mono.
  - symmetry; apply (mono_le (fun f => mp_value E f b)); auto; [|lia].
    intros k _; apply mp_mono.
Qed.
Lemma mp_array_dec f n b acc : (2 * length b + 2 <= f)%nat -> mp_array E f n b acc = decarr n b acc.
Proof.
  intros H. apply (mono_le (fun f => mp_array E f n b acc)); auto.
  - intros k _; apply mp_mono.
  - apply mp_enough; lia.
Qed.
Lemma mp_map_dec f n b acc : (2 * length b + 2 <= f)%nat -> mp_map E f n b acc = decmap n b acc.
Proof.
  intros H. apply (mono_le (fun f => mp_map E f n b acc)); auto.
  - intros k _; apply mp_mono.
  - apply mp_enough; lia.
Qed.

Lemma bind_ext {A B} (r : res A) (f g : A -> res B) :
  (forall a, r = Ok a -> f a = g a) -> bind r f = bind r g.
Proof. destruct r; simpl; auto. Qed.

Lemma dec_eq b : dec b =
  match b with
  | [] => Err ErrUnKnownCode
  | code :: b =>
    if IsStr code then parseScalar E code b
    else if IsArray code then
      do (n, b) <- parseArrLen code b;
      if n =? 0 then Ok (VArray [], b) else decarr n b []
    else if IsMap code then
      do (n, b) <- parseMapLen code b;
      if n =? 0 then Ok (VObject false [], b)
      else match b with
           | [] => Panic
           | c :: _ => if IsStr c then decmap n b (VObject false [])
                       else Err ErrMapKey
           end
    else parseScalar E code b
  end.
Proof.
  unfold dec, mp_decode, mp_fuel.
  replace (2 * length b + 3)%nat with (S (2 * length b + 2)) by lia.
  cbn [mp_value]. destruct b as [|c b]; [reflexivity|]. cbn [length].
  destruct (IsStr c); [reflexivity|].
  destruct (IsArray c).
  { apply bind_ext. intros [n b'] Hl. apply parseArrLen_len in Hl.
    destruct (n =? 0); auto. apply mp_array_dec; lia. }
  destruct (IsMap c); [|reflexivity].
  apply bind_ext. intros [n b'] Hl. apply parseMapLen_len in Hl.
  destruct (n =? 0); auto. destruct b'; auto. destruct (IsStr z); auto.
  apply mp_map_dec; lia.
Qed.

Lemma decarr_eq n b acc : decarr n b acc =
  if n <=? 0 then Ok (VArray acc, b)
  else do (v, b) <- dec b; decarr (n - 1) b (acc ++ [v]).
Proof.
  unfold decarr at 1. replace (2 * length b + 2)%nat with (S (2 * length b + 1)) by lia.
  cbn [mp_array]. destruct (n <=? 0); auto.
  rewrite mp_value_dec by lia. apply bind_ext. intros [v b'] Hv.
  rewrite <- (mp_value_dec (2 * length b + 1)) in Hv by lia.
  apply mp_len in Hv. apply mp_array_dec; lia.
Qed.

Lemma decmap_eq n b acc : decmap n b acc =
  if n <=? 0 then Ok (acc, b)
  else match b with
       | [] => Err ErrUnKnownCode
       | code :: b =>
           do (k, b) <- parseStr code b;
           do (v, b) <- dec b;
           decmap (n - 1) b (set_key_value E acc k v)
       end.
Proof.
  unfold decmap at 1. replace (2 * length b + 2)%nat with (S (2 * length b + 1)) by lia.
  cbn [mp_map]. destruct (n <=? 0); auto. destruct b as [|c b]; auto. cbn [length].
  apply bind_ext. intros [k b'] Hk. apply parseStr_len in Hk.
  rewrite mp_value_dec by lia. apply bind_ext. intros [v b''] Hv.
  rewrite <- (mp_value_dec (2 * S (length b) + 1)) in Hv by lia.
  apply mp_len in Hv. apply mp_map_dec; lia.
Qed.

Lemma dec_len b v t : dec b = Ok (v, t) -> (length t < length b)%nat.
Proof. apply mp_len. Qed.
Lemma dec_total b : dec b <> OutOfFuel.
Proof. unfold dec, mp_decode. apply (proj1 (mp_enough _)). unfold mp_fuel; lia. Qed.
End Fuel.
