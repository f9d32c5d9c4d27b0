(** The heap decoder builds what the tree decoder returns. *)
From Verif Require Import Base Values Tactics MsgPackModel MsgPackSpec MsgPackThms MsgPackFuel HeapModel MsgLoadModel HeapSpec MsgLoadSpec HeapBase HeapConf HeapGet HeapCalls HeapObj HeapForce HeapTree HeapClone HeapTyped HeapBuild.

Section MsgLoadThms.
Variable E : env.
Variable G : nat -> nat.
Notation N := none_set.

(** What [parseScalar] can return. *)
Definition scalar_ok (v : value) : Prop :=
  match v with
  | VInt e n => e = 0 /\ - 2^63 <= n < 2^63
  | VFloat n => 0 <= n < 2^32
  | VBinary e _ | VExBinary e _ => e = 0
  | VString _ | VDouble _ | VDateTime _ | VTrue | VFalse | VNull | VNilP => True
  | _ => False
  end.
Lemma parseScalar_ok code b v t : byte_ok code -> bytes_ok b -> parseScalar E code b = Ok (v, t) -> scalar_ok v.
Proof.
  intros HC HB H. unfold parseScalar in H. unfold byte_ok in HC.
  assert (U8 : forall n r, parseUint8 b = Ok (n, r) -> 0 <= n < 2^8).
  { intros n r Q. destruct b; cbn in Q; [discriminate|]. apply ok_pair in Q as [<- <-]. inversion HB; auto. }
  assert (U16 : forall n r, parseUint16 b = Ok (n, r) -> 0 <= n < 2^16).
  { intros n r Q. destruct b as [|x [|y b]]; try discriminate. cbn [parseUint16] in Q. apply ok_pair in Q as [<- <-].
    inversion HB as [|? ? A HB1]; subst. inversion HB1 as [|? ? A1 HB2]; subst. unfold byte_ok in *. lia. }
  assert (U32 : forall n r, parseUint32 b = Ok (n, r) -> 0 <= n < 2^32).
  { intros n r Q. destruct b as [|x [|y [|z [|w b]]]]; try discriminate. cbn [parseUint32] in Q. apply ok_pair in Q as [<- <-].
    inversion HB as [|? ? A HB1]; subst. inversion HB1 as [|? ? A1 HB2]; subst. inversion HB2 as [|? ? A2 HB3]; subst.
    inversion HB3 as [|? ? A3 HB4]; subst. unfold byte_ok in *. lia. }
  assert (U64 : forall n r, parseUint64 b = Ok (n, r) -> 0 <= n < 2^64).
  { intros n r Q. destruct b as [|x [|y [|z [|w [|x1 [|y1 [|z1 [|w1 b]]]]]]]]; try discriminate.
    cbn [parseUint64] in Q. apply ok_pair in Q as [<- <-].
    repeat match goal with A : bytes_ok (_ :: _) |- _ => inversion A; clear A; subst | A : Forall byte_ok (_ :: _) |- _ => inversion A; clear A; subst end.
    unfold byte_ok in *. lia. }
  destruct (IsStr code). { apply bind_ok in H as ([x r] & _ & H). apply ok_pair in H as [<- _]. exact I. }
  destruct (IsFixedNum code). { apply ok_pair in H as [<- _]. cbn. split; [auto|]. unfold s8. destruct (Z.ltb_spec code (2^7)); lia. }
  destruct (code =? CodeUint8). { apply bind_ok in H as ([x r] & Q & H). apply ok_pair in H as [<- _]. apply U8 in Q. cbn. lia. }
  destruct (code =? CodeInt8). { apply bind_ok in H as ([x r] & Q & H). apply ok_pair in H as [<- _]. apply U8 in Q. cbn. split; [auto|]. unfold s8. destruct (Z.ltb_spec x (2^7)); lia. }
  destruct (code =? CodeUint16). { apply bind_ok in H as ([x r] & Q & H). apply ok_pair in H as [<- _]. apply U16 in Q. cbn. lia. }
  destruct (code =? CodeInt16). { apply bind_ok in H as ([x r] & Q & H). apply ok_pair in H as [<- _]. apply U16 in Q. cbn. split; [auto|]. unfold s16. destruct (Z.ltb_spec x (2^15)); lia. }
  destruct (code =? CodeUint32). { apply bind_ok in H as ([x r] & Q & H). apply ok_pair in H as [<- _]. apply U32 in Q. cbn. lia. }
  destruct (code =? CodeInt32). { apply bind_ok in H as ([x r] & Q & H). apply ok_pair in H as [<- _]. apply U32 in Q. cbn. split; [auto|]. unfold s32. destruct (Z.ltb_spec x (2^31)); lia. }
  destruct (_ || _). { apply bind_ok in H as ([x r] & Q & H). apply ok_pair in H as [<- _]. apply U64 in Q. cbn. split; [auto|]. unfold s64. destruct (Z.ltb_spec x (2^63)); lia. }
  destruct (code =? CodeFloat). { apply bind_ok in H as ([x r] & Q & H). apply ok_pair in H as [<- _]. apply U32 in Q. exact Q. }
  destruct (code =? CodeDouble). { apply bind_ok in H as ([x r] & Q & H). apply ok_pair in H as [<- _]. exact I. }
  destruct (code =? CodeTrue). { apply ok_pair in H as [<- _]. exact I. }
  destruct (code =? CodeFalse). { apply ok_pair in H as [<- _]. exact I. }
  destruct (code =? CodeNil). { apply ok_pair in H as [<- _]. exact I. }
  destruct (IsBin code).
  { apply bind_ok in H as ([x r] & Q & H). destruct (x <=? zlen r); [|discriminate]. apply ok_pair in H as [<- _]. reflexivity. }
  destruct (IsExt code).
  { unfold parseExt in H. apply bind_ok in H as ([x r] & Q & H). destruct (zlen r <? x); [discriminate|].
    destruct (zlen r <? x + 1); [discriminate|]. destruct r as [|t0 r]; [discriminate|].
    destruct (IsTime code t0); [|apply ok_pair in H as [<- _]; reflexivity].
    destruct (code =? CodeFixExt4); [apply bind_ok in H as (y & _ & H); apply ok_pair in H as [<- _]; exact I|].
    destruct (code =? CodeFixExt8); [apply bind_ok in H as (y & _ & H); apply ok_pair in H as [<- _]; exact I|].
    apply bind_ok in H as (y & _ & H). destruct (zlen r <? 4); [discriminate|].
    apply bind_ok in H as (z & _ & H). apply ok_pair in H as [<- _]. exact I. }
  apply ok_pair in H as [<- _]. exact I.
Qed.

Lemma place_ok s c v : wf s -> ok_cache N s c -> scalar_ok v ->
  decoded s c v (fst (place G s c v)) (snd (place G s c v)).
Proof.
  intros W OC SC.
  assert (NS : forall cl t, clean cl t -> forall nc, c_dt nc = c_dt cl -> c_kvs nc = c_kvs cl -> c_arr nc = c_arr cl -> forall y, ~ sees nc y).
  { intros cl t CL nc A B D y Y. apply (clean_leaf cl t y CL). unfold sees in *. rewrite A, B, D in Y. exact Y. }
  assert (GB : forall t r s1, getValue G s c t = (r, s1) -> clean (hp s1 r) t /\ (5 <= r)%nat).
  { intros t r s1 Q. destruct (get_base G s c t r s1 W OC Q) as [B CL]. split; [exact CL|apply B]. }
  destruct v; cbn [scalar_ok] in SC; try (destruct SC; fail); cbn [place].
  - cbn. auto.
  - destruct (getValue G s c TString) as [r s1] eqn:Q. destruct (GB _ _ _ Q) as [CL _]. cbn [fst snd].
    apply (one_cell G s c TString); auto; [apply CL|apply (NS _ _ CL); reflexivity|].
    pose proof (rep_str (upd (hp s1) r (w_str (hp s1 r) s0)) r) as RI. rewrite upd_same in RI.
    cbn [w_str c_dt c_str] in RI. eexists. split; [apply RI; apply CL|reflexivity].
  - destruct (getValue G s c TInt) as [r s1] eqn:Q. destruct (GB _ _ _ Q) as [CL _]. cbn [fst snd].
    unfold SetInt, ensure. destruct CL as (D & EX & CR). rewrite D. change (vt_eqb TInt TInt) with true. cbv zeta iota.
    apply (one_cell G s c TInt); auto; [apply (NS (hp s1 r) TInt (conj D (conj EX CR))); reflexivity|].
    exists (VInt 0 n). destruct SC as [-> SC]. split; [|reflexivity].
    pose proof (rep_int (upd (hp s1) r (w_sv (hp s1 r) (to_u64 n))) r) as RI. rewrite upd_same in RI.
    cbn [w_sv c_dt c_ext c_sv] in RI. rewrite EX, (i64_u64 n SC) in RI. auto.
  - destruct (getValue G s c TFloat) as [r s1] eqn:Q. destruct (GB _ _ _ Q) as [CL L5]. cbn [fst snd].
    unfold SetFloat, ensure. replace (ReadOnly r) with false by (symmetry; apply ReadOnly_ge; auto).
    destruct CL as (D & CR). rewrite D. change (vt_eqb TFloat TFloat) with true. cbv zeta iota.
    apply (one_cell G s c TFloat); auto; [apply (NS (hp s1 r) TFloat (conj D CR)); reflexivity|].
    pose proof (rep_flt (upd (hp s1) r (w_sv (hp s1 r) (c_sv (hp s1 r) / 2^32 * 2^32 + raw))) r) as RI. rewrite upd_same in RI.
    cbn [w_sv c_dt c_sv] in RI. eexists. split; [apply RI; auto|]. cbn [low]. f_equal.
    rewrite Z.add_comm, Z.mod_add by lia. apply Z.mod_small; auto.
  - destruct (getValue G s c TDouble) as [r s1] eqn:Q. destruct (GB _ _ _ Q) as [CL L5]. cbn [fst snd].
    unfold SetDouble. replace (ReadOnly r) with false by (symmetry; apply ReadOnly_ge; auto).
    destruct CL as (D & CR). rewrite D. change (is_dbl TDouble) with true. cbv zeta iota.
    apply (one_cell G s c TDouble); auto; [apply (NS (hp s1 r) TDouble (conj D CR)); reflexivity|].
    pose proof (rep_dbl (upd (hp s1) r (w_sv (hp s1 r) bits)) r) as RI. rewrite upd_same in RI.
    cbn [w_sv c_dt c_sv] in RI. eexists. split; [apply RI; auto|reflexivity].
  - destruct (getValue G s c TDateTime) as [r s1] eqn:Q. destruct (GB _ _ _ Q) as [CL L5]. cbn [fst snd].
    unfold SetDouble. replace (ReadOnly r) with false by (symmetry; apply ReadOnly_ge; auto).
    destruct CL as (D & CR). rewrite D. change (is_dbl TDateTime) with true. cbv zeta iota.
    apply (one_cell G s c TDateTime); auto; [apply (NS (hp s1 r) TDateTime (conj D CR)); reflexivity|].
    pose proof (rep_dat (upd (hp s1) r (w_sv (hp s1 r) bits)) r) as RI. rewrite upd_same in RI.
    cbn [w_sv c_dt c_sv] in RI. eexists. split; [apply RI; auto|reflexivity].
  - destruct (getValue G s c TBinary) as [r s1] eqn:Q. destruct (GB _ _ _ Q) as [CL _]. cbn [fst snd].
    destruct CL as (D & EX & CR).
    apply (one_cell G s c TBinary); auto; [apply (NS (hp s1 r) TBinary (conj D (conj EX CR))); reflexivity|].
    pose proof (rep_bin (upd (hp s1) r (w_bin (hp s1 r) b)) r) as RI. rewrite upd_same in RI.
    cbn [w_bin c_dt c_ext c_bin] in RI. rewrite EX in RI. subst. eexists. split; [apply RI; auto|reflexivity].
  - destruct (getValue G s c TExBinary) as [r s1] eqn:Q. destruct (GB _ _ _ Q) as [CL _]. cbn [fst snd].
    destruct CL as (D & EX & CR).
    apply (one_cell G s c TExBinary); auto; [apply (NS (hp s1 r) TExBinary (conj D (conj EX CR))); reflexivity|].
    pose proof (rep_exb (upd (hp s1) r (w_bin (hp s1 r) b)) r) as RI. rewrite upd_same in RI.
    cbn [w_bin c_dt c_ext c_bin] in RI. rewrite EX in RI. subst. eexists. split; [apply RI; auto|reflexivity].
  - apply (shared_const s c loc_null VNull W); [repeat constructor|]. exists VNull. split; [|reflexivity].
    constructor. apply (i_const _ _ _ W loc_null). repeat constructor.
  - apply (shared_const s c loc_true VTrue W); [repeat constructor|]. exists VTrue. split; [|reflexivity].
    constructor. apply (i_const _ _ _ W loc_true). repeat constructor.
  - apply (shared_const s c loc_false VFalse W); [repeat constructor|]. exists VFalse. split; [|reflexivity].
    constructor. apply (i_const _ _ _ W loc_false). repeat constructor.
Qed.

Definition sim_value (f : nat) : Prop := forall s c b, wf s -> ok_cache N s c -> bytes_ok b ->
  match mp_value E f b with
  | Ok (v, t) => exists s' p, hm_value E G f s c b = Ok (s', inr (p, t)) /\ bytes_ok t /\ decoded s c v p s'
  | Err e => exists s', hm_value E G f s c b = Ok (s', inl e)
  | Panic => hm_value E G f s c b = Panic
  | OutOfFuel => hm_value E G f s c b = OutOfFuel
  end.
Definition sim_array (f : nat) : Prop := forall s1 s r c n b acc, wf s1 -> ok_cache N s1 c -> live s1 r -> (5 <= r)%nat ->
  grown s1 c r s -> c_dt (hp s r) = TArray -> Forall2 (shows (hp s)) (c_arr (hp s r)) acc -> bytes_ok b ->
  match mp_array E f n b acc with
  | Ok (v, t) => exists s', hm_array E G f s r c n b = Ok (s', inr (Some r, t)) /\ bytes_ok t /\ grown s1 c r s' /\
      shows (hp s') (Some r) v
  | Err e => exists s', hm_array E G f s r c n b = Ok (s', inl e)
  | Panic => hm_array E G f s r c n b = Panic
  | OutOfFuel => hm_array E G f s r c n b = OutOfFuel
  end.
Definition sim_map (f : nat) : Prop := forall s1 s r c n b u kvs, wf s1 -> ok_cache N s1 c -> live s1 r -> (5 <= r)%nat ->
  grown s1 c r s -> c_dt (hp s r) = TObject -> c_unesc (hp s r) = u ->
  Forall2 (kvR (shows (hp s))) (c_kvs (hp s r)) kvs -> bytes_ok b ->
  match mp_map E f n b (VObject u kvs) with
  | Ok (v, t) => exists s', hm_map E G f s r c n b = Ok (s', inr (Some r, t)) /\ bytes_ok t /\ grown s1 c r s' /\
      shows (hp s') (Some r) v
  | Err e => exists s', hm_map E G f s r c n b = Ok (s', inl e)
  | Panic => hm_map E G f s r c n b = Panic
  | OutOfFuel => hm_map E G f s r c n b = OutOfFuel
  end.

Lemma gives_up s r e : wf s -> ok_loc N s r -> exists s', give_up s r e = Ok (s', inl e).
Proof.
  intros W O. destruct (free_total s r W O) as [s' Q]. exists s'. unfold give_up. rewrite Q. reflexivity.
Qed.
Lemma sim_scalar s c code b : wf s -> ok_cache N s c -> byte_ok code -> bytes_ok b ->
  match parseScalar E code b with
  | Ok (v, t) => exists s' p, hm_scalar E G s c code b = Ok (s', inr (p, t)) /\ bytes_ok t /\ decoded s c v p s'
  | Err e => exists s', hm_scalar E G s c code b = Ok (s', inl e)
  | Panic => hm_scalar E G s c code b = Panic
  | OutOfFuel => hm_scalar E G s c code b = OutOfFuel
  end.
Proof.
  intros W OC BC BB. unfold hm_scalar. destruct (parseScalar E code b) as [[v t]|e| |] eqn:Q; auto; [|eexists; reflexivity].
  pose proof (place_ok s c v W OC (parseScalar_ok code b v t BC BB Q)) as D.
  destruct (place G s c v) as [p s1]. cbn [fst snd] in D. exists s1, p. split; [reflexivity|]. split; [|exact D].
  eapply suffix_ok; [eapply parseScalar_suf; exact Q|exact BB].
Qed.
Lemma sees_arr cl y : c_dt cl = TArray -> sees cl y <-> In (Some y) (c_arr cl).
Proof. intros D. unfold sees. rewrite D. tauto. Qed.
Lemma sees_obj cl y : c_dt cl = TObject -> sees cl y <-> In (Some y) (map snd (c_kvs cl)).
Proof. intros D. unfold sees. rewrite D. tauto. Qed.
Lemma F2_in {A B} (R S : A -> B -> Prop) l m : Forall2 R l m -> (forall a b, In a l -> R a b -> S a b) -> Forall2 S l m.
Proof.
  intros F H. induction F as [|a b l m Q F IH]; constructor; [apply H; [left|]; auto|]. apply IH. intros; apply H; [right|]; auto.
Qed.

Lemma hm_array_S f s r c n b : hm_array E G (S f) s r c n b =
  if n <=? 0 then Ok (s, inr (Some r, b))
  else do (s1, x) <- hm_value E G f s c b;
       match x with
       | inl e => give_up s1 r e
       | inr (p, b) => hm_array E G f (set_cell s1 r (w_arr (hp s1 r) (c_arr (hp s1 r) ++ [p]))) r c (n - 1) b
       end.
Proof. reflexivity. Qed.
Lemma hm_map_S f s r c n b : hm_map E G (S f) s r c n b =
  if n <=? 0 then Ok (s, inr (Some r, b))
  else match b with
       | [] => give_up s r ErrUnKnownCode
       | code :: b =>
           match parseStr code b with
           | Ok (k, b) =>
               do (s1, x) <- hm_value E G f s c b;
               match x with
               | inl e => give_up s1 r e
               | inr (p, b) => hm_map E G f (SetKeyValue E G s1 r k p) r c (n - 1) b
               end
           | Err e => give_up s r e
           | Panic => Panic
           | OutOfFuel => OutOfFuel
           end
       end.
Proof. reflexivity. Qed.

Theorem sim_all f : sim_value f /\ sim_array f /\ sim_map f.
Proof.
  induction f as [|f (IV & IA & IM)].
  { repeat split; intro; intros; reflexivity. }
  split; [|split].
  - intros s c b W OC BB. cbn [mp_value hm_value]. destruct b as [|code b]; [eexists; reflexivity|].
    inversion BB as [|? ? BC BB']; subst.
    pose proof (sim_scalar s c code b W OC BC BB') as SC.
    destruct (IsStr code); [exact SC|]. destruct (IsArray code).
    { destruct (parseArrLen code b) as [[n b1]|e| |] eqn:Q; cbn [bind]; auto; [|eexists; reflexivity].
      assert (B1 : bytes_ok b1) by (eapply suffix_ok; [eapply parseArrLen_suf; exact Q|exact BB']).
      destruct (getValue G s c TArray) as [r s1] eqn:GV.
      destruct (grown_start G s c TArray r s1 W OC GV) as (B & CL & W1 & OC1 & GR).
      assert (CA : c_arr (hp s1 r) = []) by apply CL. assert (CD : c_dt (hp s1 r) = TArray) by apply CL.
      destruct (n =? 0).
      - exists s1, (Some r). split; [reflexivity|]. split; [exact B1|].
        apply (grown_done G s c TArray r s1 s1); auto. apply shows_arr; auto. rewrite CA. constructor.
      - specialize (IA s1 s1 r (kids_cache s1 c r) n b1 [] W1 OC1 (b_live _ _ _ _ B) (b_5 _ _ _ _ B) GR CD).
        rewrite CA in IA. specialize (IA (Forall2_nil _) B1).
        destruct (mp_array E f n b1 []) as [[v t]|e| |]; auto. destruct IA as (s' & H1 & H2 & H3 & H4).
        exists s', (Some r). split; [exact H1|]. split; [exact H2|]. apply (grown_done G s c TArray r s1 s'); auto. }
    destruct (IsMap code); [|exact SC].
    destruct (parseMapLen code b) as [[n b1]|e| |] eqn:Q; cbn [bind]; auto; [|eexists; reflexivity].
    assert (B1 : bytes_ok b1) by (eapply suffix_ok; [eapply parseMapLen_suf; exact Q|exact BB']).
    destruct (getValue G s c TObject) as [r s1] eqn:GV.
    destruct (grown_start G s c TObject r s1 W OC GV) as (B & CL & W1 & OC1 & GR).
    assert (CA : c_kvs (hp s1 r) = []) by apply CL. assert (CD : c_dt (hp s1 r) = TObject) by apply CL.
    assert (CU : c_unesc (hp s1 r) = false) by apply CL.
    destruct (n =? 0).
    { exists s1, (Some r). split; [reflexivity|]. split; [exact B1|].
      apply (grown_done G s c TObject r s1 s1); auto. apply shows_obj; auto. rewrite CA. constructor. }
    destruct b1 as [|k b1]; [reflexivity|]. destruct (IsStr k); [|eexists; reflexivity].
    specialize (IM s1 s1 r (kids_cache s1 c r) n (k :: b1) false [] W1 OC1 (b_live _ _ _ _ B) (b_5 _ _ _ _ B) GR CD CU).
    rewrite CA in IM. specialize (IM (Forall2_nil _) B1).
    destruct (mp_map E f n (k :: b1) (VObject false [])) as [[v t]|e| |]; auto. destruct IM as (s' & H1 & H2 & H3 & H4).
    exists s', (Some r). split; [exact H1|]. split; [exact H2|]. apply (grown_done G s c TObject r s1 s'); auto.
  - intros s1 s r c n b acc W1 OC L1 L5 GR D F BB. rewrite mp_array_S, hm_array_S. destruct (n <=? 0).
    { exists s. split; [reflexivity|]. split; [exact BB|]. split; [exact GR|]. apply shows_arr; auto. }
    pose proof (grown_live _ _ _ _ L1 GR) as L. pose proof (grown_cache _ _ _ _ W1 OC L1 GR) as OCs.
    pose proof (IV s c b (gr_wf _ _ _ _ GR) OCs BB) as HV.
    destruct (mp_value E f b) as [[v t]|e| |]; cbn [bind]; [| |rewrite HV; reflexivity|rewrite HV; reflexivity].
    + destruct HV as (s2 & p & H1 & H2 & H3). rewrite H1. cbn [bind].
      destruct (decoded_frame _ _ _ _ _ r H3 L) as [HR L2].
      set (s3 := set_cell s2 r (w_arr (hp s2 r) (c_arr (hp s2 r) ++ [p]))).
      assert (HR3 : hp s3 r = w_arr (hp s r) (c_arr (hp s r) ++ [p])).
      { unfold s3. cbn [set_cell hp]. rewrite upd_same, HR. reflexivity. }
      destruct (grow_step G s1 c r s v p s2 s3 W1 OC L1 L5 GR H3 (stored_append G s2 r p)) as (GR3 & SP & OLD).
      { rewrite HR3. unfold kid_ptrs. cbn [w_arr c_arr c_dt]. rewrite D. apply puts_app. }
      apply (IA s1 s3 r c (n - 1) t (acc ++ [v]) W1 OC L1 L5 GR3); auto.
      * rewrite HR3. exact D.
      * rewrite HR3. cbn [w_arr c_arr]. apply Forall2_app; [|constructor; [exact SP|constructor]].
        eapply F2_in; [exact F|]. intros a u IN SH. apply OLD; auto. intros y ->. apply sees_arr; auto.
    + destruct HV as (s2 & H1). rewrite H1. cbn [bind]. apply gives_up.
      * apply (proj1 (tr_hm N N E G f) s c b s2 (inl e) (gr_wf _ _ _ _ GR) OCs H1).
      * eapply ok_loc_tr; [apply (proj1 (tr_hm N N E G f) s c b s2 (inl e) (gr_wf _ _ _ _ GR) OCs H1)|].
        split; [apply L|intros []].
  - intros s1 s r c n b u kvs W1 OC L1 L5 GR D U F BB. rewrite mp_map_S, hm_map_S. destruct (n <=? 0).
    { exists s. split; [reflexivity|]. split; [exact BB|]. split; [exact GR|]. apply shows_obj; auto. }
    pose proof (grown_live _ _ _ _ L1 GR) as L. pose proof (grown_cache _ _ _ _ W1 OC L1 GR) as OCs.
    assert (OL : ok_loc N s r) by (split; [apply L|intros []]).
    destruct b as [|code b]; [apply gives_up; auto; apply GR|]. inversion BB as [|? ? BC BB']; subst.
    destruct (parseStr code b) as [[k b1]|e| |] eqn:Q; cbn [bind]; auto; [|apply gives_up; auto; apply GR].
    assert (B1 : bytes_ok b1) by (eapply suffix_ok; [eapply parseStr_suf; exact Q|exact BB']).
    pose proof (IV s c b1 (gr_wf _ _ _ _ GR) OCs B1) as HV.
    destruct (mp_value E f b1) as [[v t]|e| |]; cbn [bind]; [| |rewrite HV; reflexivity|rewrite HV; reflexivity].
    + destruct HV as (s2 & p & H1 & H2 & H3). rewrite H1. cbn [bind].
      destruct (decoded_frame _ _ _ _ _ r H3 L) as [HR L2].
      assert (D2 : c_dt (hp s2 r) = TObject) by (rewrite HR; exact D).
      set (s3 := SetKeyValue E G s2 r k p).
      assert (SK : forall R : ptr -> value -> Prop, Forall2 (kvR R) (c_kvs (hp s2 r)) kvs -> R p v ->
        exists u' kvs', set_key_value E (VObject (c_unesc (hp s r)) kvs) k v = VObject u' kvs' /\
         c_dt (hp s3 r) = TObject /\ c_unesc (hp s3 r) = u' /\ Forall2 (kvR R) (c_kvs (hp s3 r)) kvs' /\
         puts (map snd (c_kvs (hp s2 r))) p (map snd (c_kvs (hp s3 r)))).
      { intros R FR RP. apply (set_key_cell E G R s2 r k p v); auto. rewrite HR. reflexivity. }
      destruct (grow_step G s1 c r s v p s2 s3 W1 OC L1 L5 GR H3 (stored_key E G s2 r k p D2)) as (GR3 & SP & OLD).
      { destruct (SK (fun _ _ => True)) as (u' & kvs' & _ & D3 & _ & _ & IN); [|exact I|].
        - rewrite HR. eapply F2_in; [exact F|]. intros a b0 _ [X _]. split; [exact X|exact I].
        - unfold kid_ptrs. rewrite D, D3, <- HR. exact IN. }
      destruct (SK (shows (hp s3))) as (u' & kvs' & Q1 & D3 & U3 & F3 & _); [|exact SP|].
      * rewrite HR. eapply F2_in; [exact F|]. intros a u0 IN [X SH]. split; [exact X|]. apply OLD; auto.
        intros y Y. apply sees_obj; auto. rewrite <- Y. apply in_map. exact IN.
      * rewrite Q1. apply (IM s1 s3 r c (n - 1) t u' kvs' W1 OC L1 L5 GR3); auto.
    + destruct HV as (s2 & H1). rewrite H1. cbn [bind]. apply gives_up.
      * apply (proj1 (tr_hm N N E G f) s c b1 s2 (inl e) (gr_wf _ _ _ _ GR) OCs H1).
      * eapply ok_loc_tr; [apply (proj1 (tr_hm N N E G f) s c b1 s2 (inl e) (gr_wf _ _ _ _ GR) OCs H1)|exact OL].
Qed.

(** ** [NewValueFromMsgPack] *)
Lemma h_New_eq s uc b : h_NewValueFromMsgPack E G s uc b =
  do (s1, x) <- hm_value E G (mp_fuel b) (snd (cache_of s uc)) (fst (cache_of s uc)) b;
  Ok (s1, match x with inl e => inl e | inr (p, _) => inr p end).
Proof.
  unfold h_NewValueFromMsgPack, cache_of. destruct uc as [ch|]; [|reflexivity]. destruct (getCache s ch); reflexivity.
Qed.
Theorem new_msg s uc b : wf s -> bytes_ok b ->
  match NewValueFromMsgPack E b with
  | Ok v => exists s' p, h_NewValueFromMsgPack E G s uc b = Ok (s', inr p) /\
      decoded (snd (cache_of s uc)) (fst (cache_of s uc)) v p s'
  | Err e => exists s', h_NewValueFromMsgPack E G s uc b = Ok (s', inl e)
  | Panic => h_NewValueFromMsgPack E G s uc b = Panic
  | OutOfFuel => h_NewValueFromMsgPack E G s uc b = OutOfFuel
  end.
Proof.
  intros W BB. rewrite h_New_eq. unfold NewValueFromMsgPack, mp_decode.
  destruct (cache_of_same G s uc W) as (_ & _ & _ & W1 & OC).
  pose proof (proj1 (sim_all (mp_fuel b)) _ _ b W1 OC BB) as H.
  destruct (mp_value E (mp_fuel b) b) as [[v t]|e| |]; cbn [bind].
  - destruct H as (s' & p & H1 & _ & H2). rewrite H1. cbn [bind]. exists s', p. auto.
  - destruct H as (s' & H). rewrite H. cbn [bind]. exists s'. reflexivity.
  - rewrite H. reflexivity.
  - rewrite H. reflexivity.
Qed.

(** ** [LoadFromMsgPack] *)
Lemma load_array_hm f : forall s l c n b s' p t, hm_array E G f s l c n b = Ok (s', inr (p, t)) ->
  load_array E G f s l c n b = Ok (s', None).
Proof.
  induction f as [|f IH]; intros s l c n b s' p t H; [discriminate|]. rewrite hm_array_S in H. cbn [load_array].
  destruct (n <=? 0); [injection H as <- _ _; reflexivity|].
  destruct (hm_value E G f s c b) as [[s1 [e|[q t1]]]| | |]; try discriminate; cbn [bind] in *; [|eapply IH; eauto].
  unfold give_up in H. destruct (FreeValue s1 (Some l)); discriminate.
Qed.
Lemma load_map_hm f : forall s l c n b s' p t, hm_map E G f s l c n b = Ok (s', inr (p, t)) ->
  load_map E G f s l c n b = Ok (s', None).
Proof.
  assert (GU : forall s l e s' x, give_up s l e = Ok (s', inr x) -> False).
  { intros s l e s' x H. unfold give_up in H. destruct (FreeValue s (Some l)); discriminate. }
  induction f as [|f IH]; intros s l c n b s' p t H; [discriminate|]. rewrite hm_map_S in H. cbn [load_map].
  destruct (n <=? 0); [injection H as <- _ _; reflexivity|]. destruct b as [|code b]; [exfalso; eapply GU; eauto|].
  destruct (parseStr code b) as [[k b1]|e| |]; try discriminate; [|exfalso; eapply GU; eauto].
  destruct (hm_value E G f s c b1) as [[s1 [e|[q t1]]]| | |]; try discriminate; cbn [bind] in *; [exfalso; eapply GU; eauto|eapply IH; eauto].
Qed.
Lemma mp_array_shape f : forall n b acc v t, mp_array E f n b acc = Ok (v, t) ->
  exists vs, v = VArray (acc ++ vs) /\ (0 < n -> vs <> []).
Proof.
  induction f as [|f IH]; intros n b acc v t H; [discriminate|]. rewrite mp_array_S in H.
  destruct (Z.leb_spec n 0) as [L|L]; [injection H as <- _; exists []; rewrite app_nil_r; split; [auto|lia]|].
  destruct (mp_value E f b) as [[x t1]| | |]; try discriminate. cbn [bind] in H. apply IH in H as (vs & -> & _).
  exists (x :: vs). rewrite <- app_assoc. split; [reflexivity|discriminate].
Qed.
Lemma index_finds {A} u (kvs : list (bytes * A)) k :
  fst (index_by_name E u kvs k) = find_key E (snd (snd (index_by_name E u kvs k))) k.
Proof.
  unfold index_by_name. destruct (negb u && no_backslash k); [|reflexivity].
  destruct (find_key E kvs k) eqn:Q; cbn [fst snd]; auto.
Qed.
Lemma set_key_shape u kvs k v : exists u' kvs', set_key_value E (VObject u kvs) k v = VObject u' kvs' /\ kvs' <> [].
Proof.
  unfold set_key_value, obj_set. pose proof (index_finds u kvs k) as Q.
  destruct (index_by_name E u kvs k) as [[i|] [u1 l1]]; cbn [fst snd] in Q.
  - exists u1, (set_val i v l1). split; [reflexivity|].
    destruct l1 as [|x l1]; [discriminate|]. unfold set_val. destruct i; cbn; [destruct x; discriminate|].
    destruct (nth_error l1 i) as [[? ?]|]; discriminate.
  - exists u1, (l1 ++ [(k, v)]). split; [reflexivity|]. destruct l1; discriminate.
Qed.
Lemma mp_map_shape f : forall n b u kvs v t, mp_map E f n b (VObject u kvs) = Ok (v, t) ->
  exists u' kvs', v = VObject u' kvs' /\ (0 < n \/ kvs <> [] -> kvs' <> []).
Proof.
  induction f as [|f IH]; intros n b u kvs v t H; [discriminate|]. rewrite mp_map_S in H.
  destruct (Z.leb_spec n 0) as [L|L]; [injection H as <- _; exists u, kvs; split; [auto|intros [A|A]; [lia|auto]]|].
  destruct b as [|code b]; [discriminate|]. destruct (parseStr code b) as [[k b1]| | |]; try discriminate. cbn [bind] in H.
  destruct (mp_value E f b1) as [[x t1]| | |]; try discriminate. cbn [bind] in H.
  destruct (set_key_shape u kvs k x) as (u1 & k1 & Q & NE). rewrite Q in H.
  apply IH in H as (u2 & k2 & -> & A). exists u2, k2. split; [reflexivity|]. intros _. apply A. right; auto.
Qed.
Lemma u_pos b n t : bytes_ok b -> (parseUint16 b = Ok (n, t) \/ parseUint32 b = Ok (n, t)) -> 0 <= n.
Proof.
  intros F H. unfold parseUint16, parseUint32 in H.
  assert (P : forall x, In x b -> 0 <= x) by (intros x X; unfold bytes_ok in F; rewrite Forall_forall in F; destruct (F x X); auto).
  destruct b as [|b0 [|b1 b]]; [destruct H; discriminate|destruct H; discriminate|].
  pose proof (P b0 (or_introl eq_refl)). pose proof (P b1 (or_intror (or_introl eq_refl))).
  destruct H as [H|H]; [injection H as <- _; lia|]. destruct b as [|b2 [|b3 b]]; try discriminate. injection H as <- _.
  assert (0 <= b2) by (apply P; cbn; auto). assert (0 <= b3) by (apply P; cbn; auto). lia.
Qed.
Lemma parseMapLen_pos code b n t : bytes_ok b -> parseMapLen code b = Ok (n, t) -> 0 <= n.
Proof.
  intros F H. unfold parseMapLen in H. destruct (between 128 143 code); [injection H as <- _; apply Z.mod_pos_bound; lia|].
  destruct (code =? CodeMap16). { destruct (parseUint16 b) as [[x y]| | |] eqn:Q; try discriminate. injection H as -> ->. eapply u_pos; eauto. }
  destruct (code =? CodeMap32); [|discriminate].
  destruct (parseUint32 b) as [[x y]| | |] eqn:Q; try discriminate. injection H as -> ->. eapply u_pos; eauto.
Qed.
Lemma parseArrLen_pos code b n t : bytes_ok b -> parseArrLen code b = Ok (n, t) -> 0 <= n.
Proof.
  intros F H. unfold parseArrLen in H. destruct (between 144 159 code); [injection H as <- _; apply Z.mod_pos_bound; lia|].
  destruct (code =? CodeArray16); [eapply u_pos; eauto|].
  destruct (code =? CodeArray32); [eapply u_pos; eauto|discriminate].
Qed.

(** The outcome of the loops, for any receiver. *)
Lemma out_array f : forall s l c n b acc, wf s -> ok_cache N s c -> ok_loc N s l -> bytes_ok b ->
  match mp_array E f n b acc with
  | Ok _ => exists s', load_array E G f s l c n b = Ok (s', None)
  | Err e => exists s', load_array E G f s l c n b = Ok (s', Some e)
  | Panic => load_array E G f s l c n b = Panic
  | OutOfFuel => load_array E G f s l c n b = OutOfFuel
  end.
Proof.
  induction f as [|f IH]; intros s l c n b acc W OC OL BB; [reflexivity|]. rewrite mp_array_S. cbn [load_array].
  destruct (n <=? 0); [exists s; reflexivity|].
  pose proof (proj1 (sim_all f) s c b W OC BB) as HV.
  destruct (mp_value E f b) as [[v t]|e| |]; cbn [bind]; [| |rewrite HV; reflexivity|rewrite HV; reflexivity].
  - destruct HV as (s2 & p & H1 & H2 & H3). rewrite H1. cbn [bind].
    destruct (proj1 (tr_hm N N E G f) s c b s2 _ W OC H1) as [T O].
    pose proof (so_tr _ _ _ _ (stored_append G s2 l p) N N (proj1 T) (ok_loc_tr N N _ _ _ T OL) (O p t eq_refl)) as T2.
    pose proof (tr_trans N N _ _ _ T T2) as T3.
    apply IH; auto; [apply T3|apply (ok_cache_tr N N _ _ _ T3); auto|apply (ok_loc_tr N N _ _ _ T3); auto].
  - destruct HV as (s2 & H1). rewrite H1. exists s2. reflexivity.
Qed.
Lemma out_map f : forall s l c n b acc, wf s -> ok_cache N s c -> ok_loc N s l -> bytes_ok b ->
  match mp_map E f n b acc with
  | Ok _ => exists s', load_map E G f s l c n b = Ok (s', None)
  | Err e => exists s', load_map E G f s l c n b = Ok (s', Some e)
  | Panic => load_map E G f s l c n b = Panic
  | OutOfFuel => load_map E G f s l c n b = OutOfFuel
  end.
Proof.
  induction f as [|f IH]; intros s l c n b acc W OC OL BB; [reflexivity|]. rewrite mp_map_S. cbn [load_map].
  destruct (n <=? 0); [exists s; reflexivity|]. destruct b as [|code b]; [exists s; reflexivity|].
  inversion BB as [|? ? BC BB']; subst.
  destruct (parseStr code b) as [[k b1]|e| |] eqn:Q; cbn [bind]; auto; [|exists s; reflexivity].
  assert (B1 : bytes_ok b1) by (eapply suffix_ok; [eapply parseStr_suf; exact Q|exact BB']).
  pose proof (proj1 (sim_all f) s c b1 W OC B1) as HV.
  destruct (mp_value E f b1) as [[v t]|e| |]; cbn [bind]; [| |rewrite HV; reflexivity|rewrite HV; reflexivity].
  - destruct HV as (s2 & p & H1 & H2 & H3). rewrite H1. cbn [bind].
    destruct (proj1 (tr_hm N N E G f) s c b1 s2 _ W OC H1) as [T O].
    pose proof (tr_SetKeyValue N N E G s2 l k p (proj1 T) (ok_loc_tr N N _ _ _ T OL) (O p t eq_refl)) as T2.
    pose proof (tr_trans N N _ _ _ T T2) as T3.
    apply IH; auto; [apply T3|apply (ok_cache_tr N N _ _ _ T3); auto|apply (ok_loc_tr N N _ _ _ T3); auto].
  - destruct HV as (s2 & H1). rewrite H1. exists s2. reflexivity.
Qed.
Lemma new_eq b : NewValueFromMsgPack E b = do (v, _) <- dec E b; Ok v.
Proof. reflexivity. Qed.
Theorem load_outcome s s1 l b : wf s -> ok_loc N s l -> bytes_ok b -> b <> [] -> Clear s l = Ok s1 ->
  match NewValueFromMsgPack E b with
  | Ok _ => exists s', LoadFromMsgPack E G s l b = Ok (s', None)
  | Err e => exists s', LoadFromMsgPack E G s l b = Ok (s', Some e)
  | Panic => LoadFromMsgPack E G s l b = Panic
  | OutOfFuel => LoadFromMsgPack E G s l b = OutOfFuel
  end.
Proof.
  intros W OL BB NE CL. unfold LoadFromMsgPack. rewrite CL. cbn [bind].
  pose proof (tr_Clear N N s l s1 W OL CL) as T. pose proof (ok_loc_tr N N _ _ _ T OL) as OL1. assert (W1 : wf s1) by apply T.
  destruct b as [|code b]; [congruence|]. inversion BB as [|? ? BC BB']; subst.
  rewrite new_eq, dec_eq. unfold parseMsgPack2Value.
  assert (SC : match (do (v, _) <- parseScalar E code b; Ok v) with
    | Ok _ => exists s', match parseScalar E code b with Ok (v, _) => Ok (MsgLoadModel.put s1 l v, None) | Err e => Ok (s1, Some e) | Panic => Panic | OutOfFuel => OutOfFuel end = Ok (s', None)
    | Err e => exists s', match parseScalar E code b with Ok (v, _) => Ok (MsgLoadModel.put s1 l v, None) | Err e => Ok (s1, Some e) | Panic => Panic | OutOfFuel => OutOfFuel end = Ok (s', Some e)
    | Panic => match parseScalar E code b with Ok (v, _) => Ok (MsgLoadModel.put s1 l v, None) | Err e => Ok (s1, Some e) | Panic => Panic | OutOfFuel => OutOfFuel end = Panic
    | OutOfFuel => match parseScalar E code b with Ok (v, _) => Ok (MsgLoadModel.put s1 l v, None) | Err e => Ok (s1, Some e) | Panic => Panic | OutOfFuel => OutOfFuel end = OutOfFuel
    end).
  { destruct (parseScalar E code b) as [[v t]|e| |]; cbn [bind]; eauto. }
  destruct (IsStr code); [exact SC|]. destruct (IsArray code).
  { clear SC. destruct (parseArrLen code b) as [[n b1]|e| |] eqn:Q; cbn [bind]; auto; [|exists s1; reflexivity].
    destruct (n =? 0); [exists s1; reflexivity|].
    pose proof (tr_Reset N N s1 l TArray W1 OL1) as T2.
    pose proof (out_array (mp_fuel (code :: b)) (Reset s1 l TArray) l (c_own (hp s1 l)) n b1 [] (proj1 T2)
      (ok_cache_tr N N _ _ _ T2 (own_ok N N s1 l W1 OL1)) (ok_loc_tr N N _ _ _ T2 OL1)) as H.
    rewrite mp_array_dec in H by (pose proof (parseArrLen_len _ _ _ _ Q); unfold mp_fuel; cbn [length]; lia).
    assert (B1 : bytes_ok b1) by (eapply suffix_ok; [eapply parseArrLen_suf; exact Q|exact BB']).
    specialize (H B1). destruct (decarr E n b1 []) as [[v t]|e| |]; exact H. }
  destruct (IsMap code); [|exact SC]. clear SC.
  destruct (parseMapLen code b) as [[n b1]|e| |] eqn:Q; cbn [bind]; auto; [|exists s1; reflexivity].
  destruct (n =? 0); [exists s1; reflexivity|].
  assert (B1 : bytes_ok b1) by (eapply suffix_ok; [eapply parseMapLen_suf; exact Q|exact BB']).
  pose proof (parseMapLen_len _ _ _ _ Q) as LE.
  destruct b1 as [|k b1]; [reflexivity|]. destruct (IsStr k); [|exists s1; reflexivity].
  pose proof (out_map (mp_fuel (code :: b)) s1 l (c_own (hp s1 l)) n (k :: b1) (VObject false []) W1 (own_ok N N s1 l W1 OL1) OL1 B1) as H.
  rewrite mp_map_dec in H by (unfold mp_fuel; cbn [length] in *; lia).
  destruct (decmap E n (k :: b1) (VObject false [])) as [[v t]|e| |]; exact H.
Qed.

Lemma Clear_cell s l s1 : Clear s l = Ok s1 -> hp s1 l = clear_cell (hp s l).
Proof.
  unfold Clear. intros H. apply bind_ok in H as (s2 & H1 & H). injection H as <-. cbn [set_cell hp]. rewrite upd_same.
  f_equal. destruct (c_own (hp s l)); [|injection H1 as <-; auto]. unfold cache_reset in H1.
  destruct (ca_slots (cs s n)); [discriminate|]. injection H1 as <-. reflexivity.
Qed.
Lemma Clear_nx s l s1 : Clear s l = Ok s1 -> nx s1 = nx s.
Proof.
  unfold Clear. intros H. apply bind_ok in H as (s2 & H1 & H). injection H as <-. cbn [set_cell nx].
  destruct (c_own (hp s l)); [|injection H1 as <-; auto]. unfold cache_reset in H1.
  destruct (ca_slots (cs s n)); [discriminate|]. injection H1 as <-. reflexivity.
Qed.
Lemma clear_same c : c_dt (clear_cell c) = c_dt c /\ c_ext (clear_cell c) = c_ext c /\ c_own (clear_cell c) = c_own c /\
  c_kvs (clear_cell c) = [] /\ c_unesc (clear_cell c) = false /\ c_bin (clear_cell c) = [] /\
  (c_dt c = TArray -> c_arr (clear_cell c) = []).
Proof. unfold clear_cell. destruct (c_dt c) eqn:D; cbn; repeat split; auto; discriminate. Qed.
Lemma F2_length {A B} (R : A -> B -> Prop) l m : Forall2 R l m -> length l = length m.
Proof. intros F. induction F; cbn; congruence. Qed.
Lemma shows_dt h l v : shows h (Some l) v ->
  match v with
  | VObject u kvs => c_dt (h l) = TObject /\ c_unesc (h l) = u /\ length (c_kvs (h l)) = length kvs
  | VArray vs => c_dt (h l) = TArray /\ length (c_arr (h l)) = length vs
  | VString x => c_dt (h l) = TString /\ c_str (h l) = x
  | VInt e n => c_dt (h l) = TInt /\ c_ext (h l) = e /\ to_i64 (c_sv (h l)) = n
  | VFloat n => c_dt (h l) = TFloat /\ c_sv (h l) mod 2^32 = n
  | VDouble n => c_dt (h l) = TDouble /\ c_sv (h l) = n
  | VDateTime n => c_dt (h l) = TDateTime /\ c_sv (h l) = n
  | VBinary e x => c_dt (h l) = TBinary /\ c_ext (h l) = e /\ c_bin (h l) = x
  | VExBinary e x => c_dt (h l) = TExBinary /\ c_ext (h l) = e /\ c_bin (h l) = x
  | VNilP => False
  | _ => True
  end.
Proof.
  intros (w & R & <-). inversion R; subst; cbn [low]; auto.
  - split; [auto|split; [auto|]]. rewrite map_length. eapply F2_length; eauto.
  - split; [auto|]. rewrite map_length. eapply F2_length; eauto.
Qed.
Lemma sh_str h l x : c_dt (h l) = TString -> c_str (h l) = x -> shows h (Some l) (VString x).
Proof. intros D <-. exists (VString (c_str (h l))). split; [apply rep_str; auto|reflexivity]. Qed.
Lemma sh_int h l n : c_dt (h l) = TInt -> c_ext (h l) = 0 -> to_i64 (c_sv (h l)) = n -> shows h (Some l) (VInt 0 n).
Proof. intros D X <-. rewrite <- X. eexists. split; [apply rep_int; auto|reflexivity]. Qed.
Lemma sh_flt h l n : c_dt (h l) = TFloat -> c_sv (h l) mod 2^32 = n -> shows h (Some l) (VFloat n).
Proof. intros D <-. eexists. split; [apply rep_flt; auto|reflexivity]. Qed.
Lemma sh_dbl h l n : c_dt (h l) = TDouble -> c_sv (h l) = n -> shows h (Some l) (VDouble n).
Proof. intros D <-. eexists. split; [apply rep_dbl; auto|reflexivity]. Qed.
Lemma sh_dat h l n : c_dt (h l) = TDateTime -> c_sv (h l) = n -> shows h (Some l) (VDateTime n).
Proof. intros D <-. eexists. split; [apply rep_dat; auto|reflexivity]. Qed.
Lemma sh_bin h l x : c_dt (h l) = TBinary -> c_ext (h l) = 0 -> c_bin (h l) = x -> shows h (Some l) (VBinary 0 x).
Proof. intros D X <-. rewrite <- X. eexists. split; [apply rep_bin; auto|reflexivity]. Qed.
Lemma sh_exb h l x : c_dt (h l) = TExBinary -> c_ext (h l) = 0 -> c_bin (h l) = x -> shows h (Some l) (VExBinary 0 x).
Proof. intros D X <-. rewrite <- X. eexists. split; [apply rep_exb; auto|reflexivity]. Qed.

Lemma put_shows s l v : (5 <= l)%nat -> scalar_ok v -> c_bin (hp s l) = [] ->
  (shows (hp (MsgLoadModel.put s l v)) (Some l) v <-> load_agrees (hp s l) v).
Proof.
  intros L5 SO CB. pose proof (not_shared l L5) as RO.
  assert (RS : forall t, Reset s l t = set_cell s l (reset_cell (hp s l) t)) by (intros t; unfold Reset; rewrite RO; auto).
  assert (EN : forall t, hp (ensure s l t) l = if vt_eqb (c_dt (hp s l)) t then hp s l else reset_cell (hp s l) t).
  { intros t. unfold ensure. destruct (vt_eqb (c_dt (hp s l)) t); [reflexivity|]. rewrite RS. cbn [set_cell hp]. apply upd_same. }
  assert (SD : forall d, hp (SetDouble s l d) l = w_sv (if is_dbl (c_dt (hp s l)) then hp s l else reset_cell (hp s l) TDouble) d).
  { intros d. unfold SetDouble. rewrite RO. cbn [set_cell hp]. rewrite upd_same. destruct (is_dbl (c_dt (hp s l))); [reflexivity|].
    rewrite RS. cbn [set_cell hp]. rewrite upd_same. reflexivity. }
  destruct v; cbn [MsgLoadModel.put load_agrees scalar_ok] in *; try contradiction.
  - split; intros H; [apply shows_dt in H; contradiction|contradiction].
  - assert (HC : hp (set_cell s l (w_str (hp s l) s0)) l = w_str (hp s l) s0) by (cbn [set_cell hp]; apply upd_same).
    split; intros H.
    + apply shows_dt in H as [H _]. rewrite HC in H. exact H.
    + apply sh_str; rewrite HC; auto.
  - destruct SO as [-> SO].
    assert (HC : hp (SetInt s l n) l = w_sv (if vt_eqb (c_dt (hp s l)) TInt then hp s l else reset_cell (hp s l) TInt) (to_u64 n)).
    { unfold SetInt. cbn [set_cell hp]. rewrite upd_same, EN. reflexivity. }
    destruct (vt_eqb (c_dt (hp s l)) TInt) eqn:D.
    + apply (proj1 (HeapBase.vt_eqb_eq _ _)) in D. split; intros H.
      * apply shows_dt in H as (_ & H & _). intros _. rewrite HC in H. exact H.
      * apply sh_int; rewrite HC; cbn [w_sv c_dt c_ext c_sv]; auto. apply i64_u64; lia.
    + apply vt_eqb_neq in D. split; [intros _ X; contradiction|intros _].
      apply sh_int; rewrite HC; cbn [w_sv reset_cell c_dt c_ext c_sv]; auto. apply i64_u64; lia.
  - split; [auto|intros _].
    assert (HC : hp (SetFloat s l raw) l = let cl := if vt_eqb (c_dt (hp s l)) TFloat then hp s l else reset_cell (hp s l) TFloat in
      w_sv cl (c_sv cl / 2^32 * 2^32 + raw)).
    { unfold SetFloat. rewrite RO. cbn [set_cell hp]. rewrite upd_same, EN. reflexivity. }
    apply sh_flt; rewrite HC; cbn [w_sv c_dt c_sv].
    + destruct (vt_eqb (c_dt (hp s l)) TFloat) eqn:D; [apply (proj1 (HeapBase.vt_eqb_eq _ _)) in D; exact D|reflexivity].
    + rewrite Z.add_comm, Z.mod_add by lia. apply Z.mod_small; auto.
  - split; intros H.
    + apply shows_dt in H as [H _]. rewrite SD in H. intros X. rewrite X in H. cbn in H. congruence.
    + apply sh_dbl; rewrite SD; [|reflexivity]. destruct (c_dt (hp s l)) eqn:D; cbn; try congruence; reflexivity.
  - split; intros H.
    + apply shows_dt in H as [H _]. rewrite SD in H. destruct (c_dt (hp s l)) eqn:D; cbn in H; congruence.
    + apply sh_dat; rewrite SD; [|reflexivity]. rewrite H. cbn. exact H.
  - subst. rewrite CB. cbn [app].
    assert (HC : hp (set_cell s l (w_bin (hp s l) b)) l = w_bin (hp s l) b) by (cbn [set_cell hp]; apply upd_same).
    split; intros H.
    + apply shows_dt in H as (H & H' & _). rewrite HC in H, H'. split; [exact H|exact H'].
    + apply sh_bin; rewrite HC; cbn; tauto.
  - subst. rewrite CB. cbn [app].
    assert (HC : hp (set_cell s l (w_bin (hp s l) b)) l = w_bin (hp s l) b) by (cbn [set_cell hp]; apply upd_same).
    split; intros H.
    + apply shows_dt in H as (H & H' & _). rewrite HC in H, H'. split; [exact H|exact H'].
    + apply sh_exb; rewrite HC; cbn; tauto.
  - split; [auto|intros _]. rewrite RS. exists VNull. split; [apply rep_null; cbn [set_cell hp]; rewrite upd_same|]; reflexivity.
  - split; [auto|intros _]. rewrite RS. exists VTrue. split; [apply rep_true; cbn [set_cell hp]; rewrite upd_same|]; reflexivity.
  - split; [auto|intros _]. rewrite RS. exists VFalse. split; [apply rep_false; cbn [set_cell hp]; rewrite upd_same|]; reflexivity.
Qed.

Lemma put_here s l v : (5 <= l)%nat -> (forall y, ~ sees (hp s l) y) -> only_here s l (MsgLoadModel.put s l v).
Proof.
  intros L5 NO. pose proof (not_shared l L5) as RO.
  assert (ST : forall s1 nc, (s1 = s \/ exists t, s1 = set_cell s l (reset_cell (hp s l) t)) -> (forall y, ~ sees nc y) -> only_here s l (set_cell s1 l nc)).
  { intros s1 nc Q N1. assert (F : forall x, x <> l -> hp s1 x = hp s x).
    { destruct Q as [->|[t ->]]; intros x X; [reflexivity|]. cbn [set_cell hp]. apply upd_other; auto. }
    apply leaf_here.
    - intros x X. cbn [set_cell hp]. rewrite upd_other by auto. auto.
    - intros x X. apply live_set_cell. destruct Q as [->|[t ->]]; [exact X|apply live_set_cell; exact X].
    - intros y. cbn [set_cell hp]. rewrite upd_same. apply N1. }
  assert (SR : forall t y, ~ sees (reset_cell (hp s l) t) y).
  { intros t y Y. unfold sees in Y. destruct t; cbn in Y; exact Y. }
  assert (RS : forall t, Reset s l t = set_cell s l (reset_cell (hp s l) t)) by (intros t; unfold Reset; rewrite RO; auto).
  assert (EN : forall t, (ensure s l t = s \/ exists t', ensure s l t = set_cell s l (reset_cell (hp s l) t')) /\ (forall y, ~ sees (hp (ensure s l t) l) y)).
  { intros t. unfold ensure. destruct (vt_eqb (c_dt (hp s l)) t); [auto|]. rewrite RS. split; [right; exists t; reflexivity|].
    intros y. cbn [set_cell hp]. rewrite upd_same. apply SR. }
  assert (SV : forall c0 n, (forall y, ~ sees c0 y) -> forall y, ~ sees (w_sv c0 n) y) by (intros c0 n N1 y; specialize (N1 y); unfold sees in *; cbn [w_sv c_dt c_kvs c_arr]; exact N1).
  assert (SF : only_here s l s) by (apply leaf_here; auto).
  destruct v; cbn [MsgLoadModel.put]; try exact SF; try (rewrite RS; apply (ST s); auto; fail).
  - apply (ST s); auto.
  - unfold SetInt. apply ST; [apply EN|]. apply SV, EN.
  - unfold SetFloat. rewrite RO. apply ST; [apply EN|]. apply SV, EN.
  - unfold SetDouble. rewrite RO. destruct (is_dbl (c_dt (hp s l))); apply ST; rewrite ?RS; eauto.
    apply SV. intros y. cbn [set_cell hp]. rewrite upd_same. apply SR.
  - unfold SetDouble. rewrite RO. destruct (is_dbl (c_dt (hp s l))); apply ST; rewrite ?RS; eauto.
    apply SV. intros y. cbn [set_cell hp]. rewrite upd_same. apply SR.
  - apply (ST s); auto.
  - apply (ST s); auto.
Qed.
Lemma grown_refl c l s : wf s -> (forall y, ~ sees (hp s l) y) -> grown s c l s.
Proof. intros W NS. constructor; [exact W|apply filled_refl| |apply bush_leaf; exact NS]. intros y Y. destruct (NS y Y). Qed.

(** Loading pairs into a cleared object, or into any cleared value that is not an array. *)
Lemma load_map_ok f s l c n b v t : wf s -> ok_cache N s c -> live s l -> (5 <= l)%nat -> bytes_ok b -> 0 < n ->
  c_dt (hp s l) <> TArray -> c_kvs (hp s l) = [] -> c_unesc (hp s l) = false ->
  mp_map E f n b (VObject false []) = Ok (v, t) ->
  exists s', load_map E G f s l c n b = Ok (s', None) /\ grown s c l s' /\ shows (hp s') (Some l) v.
Proof.
  intros W OC L L5 BB NP D KV UN H.
  destruct (vt_eqb (c_dt (hp s l)) TObject) eqn:DO.
  - apply (proj1 (HeapBase.vt_eqb_eq _ _)) in DO.
    assert (GR : grown s c l s). { apply grown_refl; auto. intros y Y. apply sees_obj in Y; auto. rewrite KV in Y. destruct Y. }
    pose proof (proj2 (proj2 (sim_all f)) s s l c n b false [] W OC L L5 GR DO UN) as S1. rewrite KV, H in S1.
    destruct (S1 (Forall2_nil _) BB) as (s' & H1 & _ & H3 & H2). exists s'. split; [eapply load_map_hm; exact H1|split; [exact H3|exact H2]].
  - apply vt_eqb_neq in DO. destruct f as [|f]; [discriminate|]. rewrite mp_map_S in H. cbn [load_map].
    destruct (Z.leb_spec n 0) as [X|_]; [lia|]. destruct b as [|code b]; [discriminate|]. inversion BB as [|? ? BC BB']; subst.
    destruct (parseStr code b) as [[k b1]|e| |] eqn:Q; try discriminate. cbn [bind] in H.
    assert (B1 : bytes_ok b1) by (eapply suffix_ok; [eapply parseStr_suf; exact Q|exact BB']).
    pose proof (proj1 (sim_all f) s c b1 W OC B1) as HV.
    destruct (mp_value E f b1) as [[x t1]|e| |]; try discriminate. cbn [bind] in H.
    destruct HV as (s2 & p & H1 & H2 & H3). rewrite H1. cbn [bind].
    destruct (decoded_frame _ _ _ _ _ l H3 L) as [HR L2].
    destruct (stored_first E G s2 l k p L5) as [ST SK]; [rewrite HR; auto|rewrite HR; auto|].
    set (s3 := SetKeyValue E G s2 l k p) in *.
    assert (GR : grown s c l s).
    { apply grown_refl; auto. intros y Y. unfold sees in Y. destruct (c_dt (hp s l)); try congruence; exact Y. }
    destruct (grow_step G s c l s x p s2 s3 W OC L L5 GR H3 ST) as (GR3 & SP & _).
    { destruct (SK (fun _ _ => True) x I) as (u' & kvs' & _ & D3 & _ & _ & IN).
      unfold kid_ptrs at 2. rewrite D3. replace (kid_ptrs (hp s l)) with (@nil ptr); [exact IN|].
      unfold kid_ptrs. destruct (c_dt (hp s l)); congruence. }
    destruct (SK (shows (hp s3)) x SP) as (u' & kvs' & Q1 & D3 & U3 & F3 & _). rewrite Q1 in H.
    pose proof (proj2 (proj2 (sim_all f)) s s3 l c (n - 1) t1 u' kvs' W OC L L5 GR3 D3 U3 F3 H2) as S1. rewrite H in S1.
    destruct S1 as (s' & S1 & _ & S3 & S2). exists s'. split; [eapply load_map_hm; exact S1|split; [exact S3|exact S2]].
Qed.
Lemma load_array_ok f s l c n b v t : wf s -> ok_cache N s c -> live s l -> (5 <= l)%nat -> bytes_ok b ->
  c_dt (hp s l) = TArray -> c_arr (hp s l) = [] ->
  mp_array E f n b [] = Ok (v, t) ->
  exists s', load_array E G f s l c n b = Ok (s', None) /\ grown s c l s' /\ shows (hp s') (Some l) v.
Proof.
  intros W OC L L5 BB D KV H.
  assert (GR : grown s c l s). { apply grown_refl; auto. intros y Y. apply sees_arr in Y; auto. rewrite KV in Y. destruct Y. }
  pose proof (proj1 (proj2 (sim_all f)) s s l c n b [] W OC L L5 GR D) as S1. rewrite KV, H in S1.
  destruct (S1 (Forall2_nil _) BB) as (s' & H1 & _ & H3 & H2). exists s'. split; [eapply load_array_hm; exact H1|split; [exact H3|exact H2]].
Qed.

Theorem load_content s s1 l b v : wf s -> bytes_ok b -> Clear s l = Ok s1 -> live s1 l -> (5 <= l)%nat ->
  NewValueFromMsgPack E b = Ok v -> ~ map_into_array (hp s l) v ->
  exists s', LoadFromMsgPack E G s l b = Ok (s', None) /\ wf s' /\
    (shows (hp s') (Some l) v <-> load_agrees (hp s l) v) /\ only_here s1 l s'.
Proof.
  intros W BB CL L L5 H NM.
  assert (OL : ok_loc N s l). { split; [|intros []]. rewrite <- (Clear_nx s l s1 CL). apply L. }
  pose proof (tr_Clear N N s l s1 W OL CL) as T. pose proof (ok_loc_tr N N _ _ _ T OL) as OL1. assert (W1 : wf s1) by apply T.
  pose proof (Clear_cell s l s1 CL) as HC. destruct (clear_same (hp s l)) as (C1 & C2 & C3 & C4 & C5 & C6 & C7).
  rewrite <- HC in C1, C2, C3, C4, C5, C6, C7.
  assert (LA : forall u, load_agrees (hp s1 l) u <-> load_agrees (hp s l) u).
  { intros u. unfold load_agrees. rewrite C1, C2. tauto. }
  assert (NO : forall y, ~ sees (hp s1 l) y).
  { intros y Y. unfold sees in Y. rewrite C4 in Y. destruct (c_dt (hp s1 l)) eqn:D; auto. rewrite C7 in Y by congruence. destruct Y. }
  cut (exists s', LoadFromMsgPack E G s l b = Ok (s', None) /\ (shows (hp s') (Some l) v <-> load_agrees (hp s l) v) /\ only_here s1 l s').
  { intros (s' & Q & R). exists s'. split; [exact Q|]. split; [apply (tr_LoadMsg N N E G s l b s' None W OL Q)|exact R]. }
  unfold LoadFromMsgPack. rewrite CL. cbn [bind]. rewrite new_eq, dec_eq in H.
  destruct b as [|code b]; [discriminate|]. inversion BB as [|? ? BC BB']; subst. unfold parseMsgPack2Value.
  assert (SC : (do (v, _) <- parseScalar E code b; Ok v) = Ok v -> exists s',
     match parseScalar E code b with Ok (v, _) => Ok (MsgLoadModel.put s1 l v, None) | Err e => Ok (s1, Some e) | Panic => Panic | OutOfFuel => OutOfFuel end = Ok (s', None) /\
     (shows (hp s') (Some l) v <-> load_agrees (hp s l) v) /\ only_here s1 l s').
  { intros Q. destruct (parseScalar E code b) as [[u t]|e| |] eqn:PS; try discriminate. injection Q as ->.
    exists (MsgLoadModel.put s1 l v). split; [reflexivity|]. split; [|apply put_here; auto].
    rewrite <- LA. apply put_shows; auto. eapply parseScalar_ok; eauto. }
  destruct (IsStr code); [exact (SC H)|]. destruct (IsArray code).
  { clear SC. destruct (parseArrLen code b) as [[n b1]|e| |] eqn:Q; try discriminate. cbn [bind] in H.
    assert (B1 : bytes_ok b1) by (eapply suffix_ok; [eapply parseArrLen_suf; exact Q|exact BB']).
    destruct (Z.eqb_spec n 0) as [_|NZ].
    - injection H as <-. exists s1. split; [reflexivity|]. split; [|apply leaf_here; auto]. cbn [load_agrees]. split; intros X.
      + apply shows_dt in X as [X _]. congruence.
      + apply shows_arr; [congruence|]. rewrite C7 by auto. constructor.
    - pose proof (parseArrLen_pos _ _ _ _ BB' Q) as NP.
      destruct (decarr E n b1 []) as [[u t]|e| |] eqn:DA; try discriminate. injection H as ->.
      rewrite <- (mp_array_dec E (mp_fuel (code :: b))) in DA by (pose proof (parseArrLen_len _ _ _ _ Q); unfold mp_fuel; cbn [length]; lia).
      pose proof (tr_Reset N N s1 l TArray W1 OL1) as T2.
      assert (RS : Reset s1 l TArray = set_cell s1 l (reset_cell (hp s1 l) TArray)) by (unfold Reset; rewrite not_shared by auto; auto).
      destruct (load_array_ok (mp_fuel (code :: b)) (Reset s1 l TArray) l (c_own (hp s1 l)) n b1 v t) as (s' & S1 & S3 & S2); auto.
      + apply T2.
      + apply (ok_cache_tr N N _ _ _ T2). apply (own_ok N N); auto.
      + rewrite RS. apply live_set_cell; auto.
      + rewrite RS. cbn [set_cell hp]. rewrite upd_same. reflexivity.
      + rewrite RS. cbn [set_cell hp]. rewrite upd_same. reflexivity.
      + exists s'. split; [exact S1|]. split; [split; [intros _|intros _; exact S2]|].
        2: { apply (here_before s1 (Reset s1 l TArray)).
             - intros x X. rewrite RS. cbn [set_cell hp]. apply upd_other; auto.
             - intros x X. rewrite RS. apply live_set_cell; auto.
             - eapply (grown_here); [|exact L5|exact S3]. rewrite RS. apply live_set_cell; auto. }
        destruct (mp_array_shape _ _ _ _ _ _ DA) as (vs & -> & NE). cbn [app load_agrees]. destruct vs; [exfalso; apply NE; [lia|reflexivity]|exact I]. }
  destruct (IsMap code); [|exact (SC H)]. clear SC.
  destruct (parseMapLen code b) as [[n b1]|e| |] eqn:Q; try discriminate. cbn [bind] in H.
  assert (B1 : bytes_ok b1) by (eapply suffix_ok; [eapply parseMapLen_suf; exact Q|exact BB']).
  pose proof (parseMapLen_len _ _ _ _ Q) as LE.
  destruct (Z.eqb_spec n 0) as [_|NZ].
  - injection H as <-. exists s1. split; [reflexivity|]. split; [|apply leaf_here; auto]. cbn [load_agrees]. split; intros X.
    + apply shows_dt in X as [X _]. congruence.
    + apply shows_obj; [congruence|auto|]. rewrite C4. constructor.
  - pose proof (parseMapLen_pos _ _ _ _ BB' Q) as NP. destruct b1 as [|k b1]; [discriminate|]. destruct (IsStr k); [|discriminate].
    destruct (decmap E n (k :: b1) (VObject false [])) as [[u t]|e| |] eqn:DA; try discriminate. injection H as ->.
    rewrite <- (mp_map_dec E (mp_fuel (code :: b))) in DA by (unfold mp_fuel; cbn [length] in *; lia).
    destruct (mp_map_shape _ _ _ _ _ _ _ DA) as (u' & kvs' & -> & NE).
    assert (NE' : kvs' <> []) by (apply NE; left; lia).
    assert (NA : c_dt (hp s l) <> TArray). { intros X. apply NM. split; [exact X|]. exists u', kvs'. auto. }
    destruct (load_map_ok (mp_fuel (code :: b)) s1 l (c_own (hp s1 l)) n (k :: b1) (VObject u' kvs') t) as (s' & S1 & S3 & S2); auto.
    + apply (own_ok N N); auto.
    + lia.
    + rewrite C1. auto.
    + exists s'. split; [exact S1|]. split; [split; [intros _|intros _; exact S2]|eapply grown_here; eauto].
      cbn [load_agrees]. destruct kvs'; [congruence|exact NA].
Qed.
End MsgLoadThms.
