(** The JSON decoder on the heap builds what the tree decoder returns. *)
From Coq Require Import String.
From Verif Require Import Base Values Tactics JsonModel JsonSpec JsonLex JsonParse JsonSound HeapModel MsgLoadModel JsonLoadModel HeapSpec MsgLoadSpec JsonLoadSpec
  HeapBase HeapConf HeapGet HeapCalls HeapObj HeapForce HeapTree HeapClone HeapTyped HeapBuild MsgLoadThms.
Local Notation shows := MsgLoadSpec.shows.

Section JsonLoadThms.
Variable E : env.
Variable G : nat -> nat.
Notation N := none_set.
Hypothesis NE : num_env E.

Lemma low_low v : low (low v) = low v.
Proof.
  induction v using value_ind'; cbn [low]; try reflexivity.
  - f_equal. rewrite map_map. apply map_ext_in. intros [k w] I. cbn [fst snd]. f_equal.
    rewrite Forall_forall in H. apply (H (k, w) I).
  - f_equal. rewrite map_map. apply map_ext_in. rewrite Forall_forall in H. auto.
  - f_equal. apply Z.mod_mod. lia.
Qed.
Lemma js_value_scalar f c r : c <> 123 -> c <> 91 -> js_value E (S f) (c :: r) = js_scalar E (c :: r).
Proof.
  intros A B. rewrite js_value_S. apply Z.eqb_neq in A. apply Z.eqb_neq in B. rewrite A, B. reflexivity.
Qed.

(** What [js_scalar] can return. *)
Definition jscalar_ok (v : value) : Prop :=
  match v with
  | VInt e n => e = 0 /\ - 2^63 <= n < 2^63
  | VFloat n => 0 <= n < 2^32
  | VRawString _ | VDateTime _ | VTrue | VFalse | VNull | VNan | VInf | VNilP => True
  | _ => False
  end.
Lemma inf_nan_ok b v t : inf_nan b = Ok (v, t) -> v = VInf \/ v = VNan.
Proof.
  unfold inf_nan. destruct (3 <=? zlen b); [|discriminate]. destruct (fold_is _ _); [intros H; injection H as <- _; auto|].
  destruct (fold_is _ _); [intros H; injection H as <- _; auto|discriminate].
Qed.
Lemma js_scalar_ok b v t : js_scalar E b = Ok (v, t) -> jscalar_ok v.
Proof.
  destruct b as [|c r]; [discriminate|]. unfold js_scalar. destruct (c =? 34).
  { destruct (parseJsonString r) as [[ss t1]| | |]; try discriminate. cbn [bind]. intros H; injection H as <- _.
    unfold json_string_value. destruct (x_jsontime E ss); exact I. }
  destruct (c =? 116). { destruct (_ || _); [discriminate|]. intros H; injection H as <- _. exact I. }
  destruct (c =? 102). { destruct (_ || _); [discriminate|]. intros H; injection H as <- _. exact I. }
  destruct (c =? 110).
  { destruct (_ || _); [destruct (_ && _); [|discriminate]|]; intros H; injection H as <- _; exact I. }
  unfold parseJsonNum. destruct (num_end (c :: r)) as [i|]; [|intros H; injection H as <- _; exact I].
  destruct (_ || _). { intros H. apply inf_nan_ok in H as [-> | ->]; exact I. }
  destruct (existsb _ _); intros H; injection H as <- _; cbn [jscalar_ok].
  - apply NE.
  - split; [reflexivity|]. apply NE. lia.
Qed.

Lemma jplace_ok s c v : wf s -> ok_cache N s c -> jscalar_ok v ->
  decoded s c v (fst (jplace G s c v)) (snd (jplace G s c v)).
Proof.
  intros W OC SC.
  assert (NS : forall cl t, clean cl t -> forall nc, c_dt nc = c_dt cl -> c_kvs nc = c_kvs cl -> c_arr nc = c_arr cl -> forall y, ~ sees nc y).
  { intros cl t CL nc A B D y Y. apply (clean_leaf cl t y CL). unfold sees in *. rewrite A, B, D in Y. exact Y. }
  assert (GB : forall t r s1, getValue G s c t = (r, s1) -> clean (hp s1 r) t /\ (5 <= r)%nat).
  { intros t r s1 Q. destruct (get_base G s c t r s1 W OC Q) as [B CL]. split; [exact CL|apply B]. }
  destruct v; cbn [jscalar_ok] in SC; try (destruct SC; fail); cbn [jplace].
  - cbn. auto.
  - destruct (getValue G s c TRaw) as [r s1] eqn:Q. destruct (GB _ _ _ Q) as [CL _]. cbn [fst snd].
    apply (one_cell G s c TRaw); auto; [apply CL|apply (NS _ _ CL); reflexivity|].
    pose proof (rep_raw (upd (hp s1) r (w_str (hp s1 r) s0)) r) as RI. rewrite upd_same in RI.
    cbn [w_str c_dt c_str] in RI. eexists. split; [apply RI; apply CL|reflexivity].
  - pose proof (place_ok G s c (VInt ext n) W OC SC) as K. exact K.
  - pose proof (place_ok G s c (VFloat raw) W OC SC) as K. exact K.
  - pose proof (place_ok G s c (VDateTime bits) W OC SC) as K. exact K.
  - apply (shared_const s c loc_null VNull W); [repeat constructor|]. exists VNull. split; [|reflexivity].
    constructor. apply (i_const _ _ _ W loc_null). repeat constructor.
  - apply (shared_const s c loc_true VTrue W); [repeat constructor|]. exists VTrue. split; [|reflexivity].
    constructor. apply (i_const _ _ _ W loc_true). repeat constructor.
  - apply (shared_const s c loc_false VFalse W); [repeat constructor|]. exists VFalse. split; [|reflexivity].
    constructor. apply (i_const _ _ _ W loc_false). repeat constructor.
  - apply (shared_const s c loc_nan VNan W); [repeat constructor|]. exists VNan. split; [|reflexivity].
    constructor. apply (i_const _ _ _ W loc_nan). repeat constructor.
  - apply (shared_const s c loc_inf VInf W); [repeat constructor|]. exists VInf. split; [|reflexivity].
    constructor. apply (i_const _ _ _ W loc_inf). repeat constructor.
Qed.

(** A failed call leaves the cells in use as they were. *)
Definition kept (s s' : st) : Prop := forall x, live s x -> hp s' x = hp s x.
Definition kept_but (s : st) (r : nat) (s' : st) : Prop := forall x, live s x -> x <> r -> hp s' x = hp s x.
Lemma grown_kept s1 c r s : grown s1 c r s -> kept_but s1 r s.
Proof. intros GR x L Q. apply (fl_frame _ _ _ _ (gr_fill _ _ _ _ GR)); auto. Qed.
Lemma grown_kept2 s1 c r s s2 : grown s1 c r s -> kept s s2 -> kept_but s1 r s2.
Proof.
  intros GR K x L Q. rewrite K; [apply (grown_kept _ _ _ _ GR); auto|].
  apply (fl_lives _ _ _ _ (gr_fill _ _ _ _ GR)); auto.
Qed.
Lemma kept_new s c t r s1 s2 : wf s -> ok_cache N s c -> getValue G s c t = (r, s1) -> kept_but s1 r s2 -> kept s s2.
Proof.
  intros W OC GV K x L. destruct (grown_start G s c t r s1 W OC GV) as (B & _).
  rewrite K; [apply (b_frame _ _ _ _ B); auto|apply (b_lives _ _ _ _ B); auto|]. intros ->. apply (b_new _ _ _ _ B); auto.
Qed.

Definition sim_value (f : nat) : Prop := forall s c b, wf s -> ok_cache N s c ->
  match js_value E f b with
  | Ok (v, t) => exists s' p, hj_value E G f s c b = Ok (s', inr (p, t)) /\ decoded s c v p s'
  | Err e => exists s', hj_value E G f s c b = Ok (s', inl e) /\ kept s s'
  | Panic => hj_value E G f s c b = Panic
  | OutOfFuel => hj_value E G f s c b = OutOfFuel
  end.
Definition sim_members (f : nat) : Prop := forall s1 s r c b acc, wf s1 -> ok_cache N s1 c -> live s1 r -> (5 <= r)%nat ->
  grown s1 c r s -> c_dt (hp s r) = TObject -> c_unesc (hp s r) = false ->
  Forall2 (kvR (shows (hp s))) (c_kvs (hp s r)) acc ->
  match js_members E f b acc with
  | Ok (v, t) => exists s', hj_members E G f s r c b = Ok (s', inr (Some r, t)) /\ grown s1 c r s' /\ shows (hp s') (Some r) v
  | Err e => exists s', hj_members E G f s r c b = Ok (s', inl e) /\ kept_but s1 r s'
  | Panic => hj_members E G f s r c b = Panic
  | OutOfFuel => hj_members E G f s r c b = OutOfFuel
  end.
Definition sim_elems (f : nat) : Prop := forall s1 s r c b acc, wf s1 -> ok_cache N s1 c -> live s1 r -> (5 <= r)%nat ->
  grown s1 c r s -> c_dt (hp s r) = TArray -> Forall2 (shows (hp s)) (c_arr (hp s r)) acc ->
  match js_elems E f b acc with
  | Ok (v, t) => exists s', hj_elems E G f s r c b = Ok (s', inr (Some r, t)) /\ grown s1 c r s' /\ shows (hp s') (Some r) v
  | Err e => exists s', hj_elems E G f s r c b = Ok (s', inl e) /\ kept_but s1 r s'
  | Panic => hj_elems E G f s r c b = Panic
  | OutOfFuel => hj_elems E G f s r c b = OutOfFuel
  end.

Lemma stored_push s r k p : stored_at s r p (set_cell s r (push_kv G (hp s r) k p)).
Proof. apply (stored_set G); [apply dt_push|]. intros P PC A B. apply okc_push; auto. Qed.

(** Storing one more pair or element. *)
Lemma push_step s1 c r s k v p s2 acc : wf s1 -> ok_cache N s1 c -> live s1 r -> (5 <= r)%nat -> grown s1 c r s ->
  c_dt (hp s r) = TObject -> Forall2 (kvR (shows (hp s))) (c_kvs (hp s r)) acc -> decoded s c v p s2 ->
  let s3 := set_cell s2 r (push_kv G (hp s2 r) k p) in
  grown s1 c r s3 /\ hp s3 r = push_kv G (hp s r) k p /\ Forall2 (kvR (shows (hp s3))) (c_kvs (hp s3 r)) (acc ++ [(k, v)]).
Proof.
  intros W1 OC L1 L5 GR D F DE s3.
  pose proof (grown_live _ _ _ _ L1 GR) as L. destruct (decoded_frame _ _ _ _ _ r DE L) as [HR L2].
  assert (HR3 : hp s3 r = push_kv G (hp s r) k p). { unfold s3. cbn [set_cell hp]. rewrite upd_same, HR. reflexivity. }
  destruct (push_fields G (hp s r) k p) as (P1 & P2 & P3).
  destruct (grow_step G s1 c r s v p s2 s3 W1 OC L1 L5 GR DE (stored_push s2 r k p)) as (GR3 & SP & OLD).
  { rewrite HR3. unfold kid_ptrs. rewrite P3, D, P1, map_app. apply puts_app. }
  split; [exact GR3|]. split; [exact HR3|]. rewrite HR3, P1. apply Forall2_app; [|constructor; [split; [reflexivity|exact SP]|constructor]].
  eapply F2_in; [exact F|]. intros a u IN [X SH]. split; [exact X|]. apply OLD; auto.
  intros y Y. apply (sees_obj G); auto. rewrite <- Y. apply in_map. exact IN.
Qed.
Lemma append_step s1 c r s v p s2 acc : wf s1 -> ok_cache N s1 c -> live s1 r -> (5 <= r)%nat -> grown s1 c r s ->
  c_dt (hp s r) = TArray -> Forall2 (shows (hp s)) (c_arr (hp s r)) acc -> decoded s c v p s2 ->
  let s3 := set_cell s2 r (w_arr (hp s2 r) (c_arr (hp s2 r) ++ [p])) in
  grown s1 c r s3 /\ hp s3 r = w_arr (hp s r) (c_arr (hp s r) ++ [p]) /\ Forall2 (shows (hp s3)) (c_arr (hp s3 r)) (acc ++ [v]).
Proof.
  intros W1 OC L1 L5 GR D F DE s3.
  pose proof (grown_live _ _ _ _ L1 GR) as L. destruct (decoded_frame _ _ _ _ _ r DE L) as [HR L2].
  assert (HR3 : hp s3 r = w_arr (hp s r) (c_arr (hp s r) ++ [p])). { unfold s3. cbn [set_cell hp]. rewrite upd_same, HR. reflexivity. }
  destruct (grow_step G s1 c r s v p s2 s3 W1 OC L1 L5 GR DE (stored_append G s2 r p)) as (GR3 & SP & OLD).
  { rewrite HR3. unfold kid_ptrs. cbn [w_arr c_dt c_arr]. rewrite D. apply puts_app. }
  split; [exact GR3|]. split; [exact HR3|]. rewrite HR3. cbn [w_arr c_arr].
  apply Forall2_app; [|constructor; [exact SP|constructor]].
  eapply F2_in; [exact F|]. intros a u IN SH. apply OLD; auto. intros y ->. apply (sees_arr G); auto.
Qed.

Lemma hj_value_S f s c b : hj_value E G (S f) s c b =
  match b with
  | [] => hj_err s JET_NoObjBack 0 []
  | x :: r =>
      if x =? 123 then
        match skipWB r with
        | ([], sk) => hj_err s JET_NoObjBack sk r
        | ((c1 :: t) as b1, _) =>
            let (l, s1) := getValue G s c TObject in
            if c1 =? 125 then Ok (s1, inr (Some l, t)) else hj_members E G f s1 l (kids_cache s1 c l) b1
        end
      else if x =? 91 then
        match skipWB r with
        | ([], sk) => hj_err s JET_NoArrBack sk r
        | ((c1 :: t) as b1, _) =>
            let (l, s1) := getValue G s c TArray in
            if c1 =? 93 then Ok (s1, inr (Some l, t)) else hj_elems E G f s1 l (kids_cache s1 c l) b1
        end
      else
        match js_scalar E b with
        | Ok (v, t) => let (p, s1) := jplace G s c v in Ok (s1, inr (p, t))
        | Err e => Ok (s, inl e)
        | Panic => Panic
        | OutOfFuel => OutOfFuel
        end
  end.
Proof. reflexivity. Qed.
Lemma hj_members_S f s l c b : hj_members E G (S f) s l c b =
  match skipWB b with
  | ([], sk) => hj_err s JET_NoKeyStart sk b
  | (x :: r, sk) =>
      if negb (x =? 34) then hj_err s JET_NoKeyStart sk b
      else
        match parseJsonKey r with
        | Ok (k, b2) =>
            match skipWB b2 with
            | ([], sk) => hj_err s JET_NoKVSplit sk b2
            | (c3 :: r3, sk) =>
                if negb (c3 =? 58) then hj_err s JET_NoKVSplit sk b2
                else
                  do (s1, y) <- hj_value E G f s c (fst (skipWB r3));
                  match y with
                  | inl e => Ok (s1, inl e)
                  | inr (p, b5) =>
                      let s2 := set_cell s1 l (push_kv G (hp s1 l) k p) in
                      match skipWB b5 with
                      | ([], sk) => hj_err s2 JET_NoObjBack sk b5
                      | (c6 :: r6, sk) =>
                          if c6 =? 44 then hj_members E G f s2 l c r6
                          else if c6 =? 125 then Ok (s2, inr (Some l, r6))
                          else hj_err s2 JET_NoValueSplit sk b5
                      end
                  end
            end
        | Err e => Ok (s, inl e)
        | Panic => Panic
        | OutOfFuel => OutOfFuel
        end
  end.
Proof. reflexivity. Qed.
Lemma hj_elems_S f s l c b : hj_elems E G (S f) s l c b =
  do (s1, y) <- hj_value E G f s c (fst (skipWB b));
  match y with
  | inl e => Ok (s1, inl e)
  | inr (p, b2) =>
      let s2 := set_cell s1 l (w_arr (hp s1 l) (c_arr (hp s1 l) ++ [p])) in
      match skipWB b2 with
      | ([], sk) => hj_err s2 JET_NoArrBack sk b2
      | (x :: r, sk) =>
          if x =? 44 then hj_elems E G f s2 l c r
          else if x =? 93 then Ok (s2, inr (Some l, r))
          else hj_err s2 JET_NoValueSplit sk b2
      end
  end.
Proof. reflexivity. Qed.

Theorem jsim_all f : sim_value f /\ sim_members f /\ sim_elems f.
Proof.
  induction f as [|f (IV & IM & IA)].
  { repeat split; intro; intros; reflexivity. }
  assert (KR : forall s : st, kept s s) by (intros s x _; reflexivity).
  split; [|split].
  - intros s c b W OC. rewrite hj_value_S. destruct b as [|x r].
    { rewrite js_value_S. exists s. split; [reflexivity|apply KR]. }
    destruct (Z.eqb_spec x 123) as [->|X1].
    { rewrite js_value_S. change (123 =? 123) with true. cbv iota.
      destruct (skipWB r) as [[|c1 t] sk]; [exists s; split; [reflexivity|apply KR]|].
      destruct (getValue G s c TObject) as [l s1] eqn:GV.
      destruct (grown_start G s c TObject l s1 W OC GV) as (B & CL & W1 & OC1 & GR).
      assert (CA : c_kvs (hp s1 l) = []) by apply CL. assert (CD : c_dt (hp s1 l) = TObject) by apply CL.
      assert (CU : c_unesc (hp s1 l) = false) by apply CL.
      destruct (c1 =? 125).
      - exists s1, (Some l). split; [reflexivity|].
        apply (grown_done G s c TObject l s1 s1); auto. apply shows_obj; auto. rewrite CA. constructor.
      - specialize (IM s1 s1 l (kids_cache s1 c l) (c1 :: t) [] W1 OC1 (b_live _ _ _ _ B) (b_5 _ _ _ _ B) GR CD CU).
        rewrite CA in IM. specialize (IM (Forall2_nil _)).
        destruct (js_members E f (c1 :: t) []) as [[v t1]|e| |]; auto.
        + destruct IM as (s' & H1 & H2 & H3). exists s', (Some l). split; [exact H1|].
          apply (grown_done G s c TObject l s1 s'); auto.
        + destruct IM as (s' & H1 & H2). exists s'. split; [exact H1|]. eapply kept_new; eauto. }
    destruct (Z.eqb_spec x 91) as [->|X2].
    { rewrite js_value_S. change (91 =? 123) with false. change (91 =? 91) with true. cbv iota.
      destruct (skipWB r) as [[|c1 t] sk]; [exists s; split; [reflexivity|apply KR]|].
      destruct (getValue G s c TArray) as [l s1] eqn:GV.
      destruct (grown_start G s c TArray l s1 W OC GV) as (B & CL & W1 & OC1 & GR).
      assert (CA : c_arr (hp s1 l) = []) by apply CL. assert (CD : c_dt (hp s1 l) = TArray) by apply CL.
      destruct (c1 =? 93).
      - exists s1, (Some l). split; [reflexivity|].
        apply (grown_done G s c TArray l s1 s1); auto. apply shows_arr; auto. rewrite CA. constructor.
      - specialize (IA s1 s1 l (kids_cache s1 c l) (c1 :: t) [] W1 OC1 (b_live _ _ _ _ B) (b_5 _ _ _ _ B) GR CD).
        rewrite CA in IA. specialize (IA (Forall2_nil _)).
        destruct (js_elems E f (c1 :: t) []) as [[v t1]|e| |]; auto.
        + destruct IA as (s' & H1 & H2 & H3). exists s', (Some l). split; [exact H1|].
          apply (grown_done G s c TArray l s1 s'); auto.
        + destruct IA as (s' & H1 & H2). exists s'. split; [exact H1|]. eapply kept_new; eauto. }
    rewrite js_value_scalar by auto.
    destruct (js_scalar E (x :: r)) as [[v t]|e| |] eqn:Q; auto; [|exists s; split; [reflexivity|apply KR]].
    pose proof (jplace_ok s c v W OC (js_scalar_ok _ _ _ Q)) as D.
    destruct (jplace G s c v) as [p s1]. cbn [fst snd] in D. exists s1, p. split; [reflexivity|exact D].
  - intros s1 s r c b acc W1 OC L1 L5 GR D U F. rewrite js_members_S, hj_members_S.
    pose proof (grown_kept _ _ _ _ GR) as K0.
    destruct (skipWB b) as [[|x r1] sk]; [exists s; split; [reflexivity|exact K0]|].
    destruct (negb (x =? 34)); [exists s; split; [reflexivity|exact K0]|].
    destruct (parseJsonKey r1) as [[k b2]|e| |]; cbn [bind]; auto; [|exists s; split; [reflexivity|exact K0]].
    destruct (skipWB b2) as [[|c3 r3] sk2]; [exists s; split; [reflexivity|exact K0]|].
    destruct (negb (c3 =? 58)); [exists s; split; [reflexivity|exact K0]|].
    pose proof (grown_live _ _ _ _ L1 GR) as L. pose proof (grown_cache _ _ _ _ W1 OC L1 GR) as OCs.
    pose proof (IV s c (fst (skipWB r3)) (gr_wf _ _ _ _ GR) OCs) as HV.
    destruct (js_value E f (fst (skipWB r3))) as [[v b5]|e| |]; cbn [bind]; [| |rewrite HV; reflexivity|rewrite HV; reflexivity].
    2: { destruct HV as (s2 & H1 & H2). rewrite H1. cbn [bind]. exists s2. split; [reflexivity|]. eapply grown_kept2; eauto. }
    destruct HV as (s2 & p & H1 & H3). rewrite H1. cbn [bind]. cbv zeta.
    destruct (push_step s1 c r s k v p s2 acc W1 OC L1 L5 GR D F H3) as (GR3 & HR3 & F3).
    destruct (push_fields G (hp s r) k p) as (P1 & P2 & P3).
    set (s3 := set_cell s2 r (push_kv G (hp s2 r) k p)) in *.
    assert (D3 : c_dt (hp s3 r) = TObject) by (rewrite HR3, P3; exact D).
    assert (U3 : c_unesc (hp s3 r) = false) by (rewrite HR3, P2; exact U).
    pose proof (grown_kept _ _ _ _ GR3) as K3.
    destruct (skipWB b5) as [[|c6 r6] sk3]; [exists s3; split; [reflexivity|exact K3]|].
    destruct (c6 =? 44); [apply (IM s1 s3 r c r6 (acc ++ [(k, v)])); auto|].
    destruct (c6 =? 125); [|exists s3; split; [reflexivity|exact K3]].
    exists s3. split; [reflexivity|]. split; [exact GR3|]. apply shows_obj; auto.
  - intros s1 s r c b acc W1 OC L1 L5 GR D F. rewrite js_elems_S, hj_elems_S.
    pose proof (grown_live _ _ _ _ L1 GR) as L. pose proof (grown_cache _ _ _ _ W1 OC L1 GR) as OCs.
    pose proof (IV s c (fst (skipWB b)) (gr_wf _ _ _ _ GR) OCs) as HV.
    destruct (js_value E f (fst (skipWB b))) as [[v b2]|e| |]; cbn [bind]; [| |rewrite HV; reflexivity|rewrite HV; reflexivity].
    2: { destruct HV as (s2 & H1 & H2). rewrite H1. cbn [bind]. exists s2. split; [reflexivity|]. eapply grown_kept2; eauto. }
    destruct HV as (s2 & p & H1 & H3). rewrite H1. cbn [bind]. cbv zeta.
    destruct (append_step s1 c r s v p s2 acc W1 OC L1 L5 GR D F H3) as (GR3 & HR3 & F3).
    set (s3 := set_cell s2 r (w_arr (hp s2 r) (c_arr (hp s2 r) ++ [p]))) in *.
    assert (D3 : c_dt (hp s3 r) = TArray) by (rewrite HR3; exact D).
    pose proof (grown_kept _ _ _ _ GR3) as K3.
    destruct (skipWB b2) as [[|c6 r6] sk3]; [exists s3; split; [reflexivity|exact K3]|].
    destruct (c6 =? 44); [apply (IA s1 s3 r c r6 (acc ++ [v])); auto|].
    destruct (c6 =? 93); [|exists s3; split; [reflexivity|exact K3]].
    exists s3. split; [reflexivity|]. split; [exact GR3|]. apply shows_arr; auto.
Qed.

(** ** [NewValueFromJson] *)
Lemma h_NewJson_eq s uc b : h_NewValueFromJson E G s uc b =
  do (s1, x) <- hj_value E G (js_fuel (fst (skipWB b))) (snd (cache_of s uc)) (fst (cache_of s uc)) (fst (skipWB b));
  Ok (s1, match x with
          | inl e => inl e
          | inr (p, tail) => match skipWB tail with ([], _) => inr p | (_ :: _, sk) => inl (ErrJson JET_Invalidate sk tail) end
          end).
Proof.
  unfold h_NewValueFromJson, cache_of. destruct uc as [ch|]; [|reflexivity]. destruct (getCache s ch); reflexivity.
Qed.
Theorem new_json s uc b : wf s ->
  match NewValueFromJson E b with
  | Ok v => exists s' p, h_NewValueFromJson E G s uc b = Ok (s', inr p) /\
      decoded (snd (cache_of s uc)) (fst (cache_of s uc)) v p s'
  | Err e => exists s', h_NewValueFromJson E G s uc b = Ok (s', inl e) /\ kept (snd (cache_of s uc)) s'
  | Panic => h_NewValueFromJson E G s uc b = Panic
  | OutOfFuel => h_NewValueFromJson E G s uc b = OutOfFuel
  end.
Proof.
  intros W. rewrite h_NewJson_eq. unfold NewValueFromJson. cbv zeta.
  destruct (cache_of_same G s uc W) as (_ & _ & _ & W1 & OC).
  pose proof (proj1 (jsim_all (js_fuel (fst (skipWB b)))) _ _ (fst (skipWB b)) W1 OC) as H.
  destruct (js_value E (js_fuel (fst (skipWB b))) (fst (skipWB b))) as [[v t]|e| |]; cbn [bind].
  - destruct H as (s' & p & H1 & H2). rewrite H1. cbn [bind]. destruct (skipWB t) as [[|y t1] sk].
    + exists s', p. auto.
    + exists s'. split; [reflexivity|]. intros x L. apply (decoded_frame _ _ _ _ _ x H2 L).
  - destruct H as (s' & H & K). rewrite H. cbn [bind]. exists s'. auto.
  - rewrite H. reflexivity.
  - rewrite H. reflexivity.
Qed.

(** ** [LoadFromJson] *)
Lemma grown_shows s1 c r s s3 q u : wf s1 -> live s1 r -> (5 <= r)%nat -> grown s1 c r s ->
  (forall z, live s z -> z <> r -> hp s3 z = hp s z) -> (forall y, q = Some y -> sees (hp s r) y) ->
  shows (hp s) q u -> shows (hp s3) q u.
Proof.
  intros W1 L1 L5 GR K Q (w & R & LW). exists w. split; [|exact LW]. apply (rep_frame (hp s)); auto.
  intros z (y & QY & Z). destruct (kd_new _ _ _ _ _ (gr_kid _ _ _ _ GR y (Q y QY)) z Z) as [X|(X1 & X2 & X3)].
  - apply K; [apply (const_live G); [exact (gr_wf _ _ _ _ GR)|exact X]|lia].
  - apply K; [exact X3|]. intros ->. apply X2. exact L1.
Qed.

Lemma load_members_S f b acc : load_members E (S f) b acc =
  match skipWB b with
  | ([], sk) => (acc ++ [([], VNilP)], jerr JET_NoKeyStart sk b)
  | (c :: r, sk) =>
      if negb (c =? 34) then (acc ++ [([], VNilP)], jerr JET_NoKeyStart sk b)
      else
        match parseJsonKey r with
        | Ok (k, b2) =>
            match skipWB b2 with
            | ([], sk) => (acc ++ [(k, VNilP)], jerr JET_NoKVSplit sk b2)
            | (c3 :: r3, sk) =>
                if negb (c3 =? 58) then (acc ++ [(k, VNilP)], jerr JET_NoKVSplit sk b2)
                else
                  match js_value E (js_fuel (fst (skipWB r3))) (fst (skipWB r3)) with
                  | Ok (v, b5) =>
                      match skipWB b5 with
                      | ([], sk) => (acc ++ [(k, v)], jerr JET_NoObjBack sk b5)
                      | (c6 :: r6, sk) =>
                          if c6 =? 44 then load_members E f r6 (acc ++ [(k, v)])
                          else if c6 =? 125 then (acc ++ [(k, v)], Ok tt)
                          else (acc ++ [(k, v)], jerr JET_NoValueSplit sk b5)
                      end
                  | Err e => (acc ++ [(k, VNilP)], Err e)
                  | Panic => (acc ++ [(k, VNilP)], Panic)
                  | OutOfFuel => (acc ++ [(k, VNilP)], OutOfFuel)
                  end
            end
        | Err e => (acc ++ [([], VNilP)], Err e)
        | Panic => (acc ++ [([], VNilP)], Panic)
        | OutOfFuel => (acc ++ [([], VNilP)], OutOfFuel)
        end
  end.
Proof. reflexivity. Qed.
Lemma load_elems_S f b acc : load_elems E (S f) b acc =
  match js_value E (js_fuel (fst (skipWB b))) (fst (skipWB b)) with
  | Ok (v, b2) =>
      match skipWB b2 with
      | ([], sk) => (acc ++ [v], jerr JET_NoArrBack sk b2)
      | (c :: r, sk) =>
          if c =? 44 then load_elems E f r (acc ++ [v])
          else if c =? 93 then (acc ++ [v], Ok tt)
          else (acc ++ [v], jerr JET_NoValueSplit sk b2)
      end
  | Err e => (acc, Err e)
  | Panic => (acc, Panic)
  | OutOfFuel => (acc, OutOfFuel)
  end.
Proof. reflexivity. Qed.
Lemma hl_members_S f s l b : hl_members E G (S f) s l b =
  let stop c t i b := Ok (set_cell s l c, Some (ErrJson t i b)) in
  match skipWB b with
  | ([], sk) => stop (expose G (hp s l)) JET_NoKeyStart sk b
  | (x :: r, sk) =>
      if negb (x =? 34) then stop (expose G (hp s l)) JET_NoKeyStart sk b
      else
        match parseJsonKey r with
        | Ok (k, b2) =>
            match skipWB b2 with
            | ([], sk) => stop (expose_key G (hp s l) k) JET_NoKVSplit sk b2
            | (c3 :: r3, sk) =>
                if negb (c3 =? 58) then stop (expose_key G (hp s l) k) JET_NoKVSplit sk b2
                else
                  do (s1, y) <- hj_value E G (js_fuel (fst (skipWB r3))) s (c_own (hp s l)) (fst (skipWB r3));
                  match y with
                  | inl e => Ok (set_cell s1 l (push_kv G (hp s1 l) k None), Some e)
                  | inr (p, b5) =>
                      let s2 := set_cell s1 l (push_kv G (hp s1 l) k p) in
                      match skipWB b5 with
                      | ([], sk) => Ok (s2, Some (ErrJson JET_NoObjBack sk b5))
                      | (c6 :: r6, sk) =>
                          if c6 =? 44 then hl_members E G f s2 l r6
                          else if c6 =? 125 then Ok (s2, None)
                          else Ok (s2, Some (ErrJson JET_NoValueSplit sk b5))
                      end
                  end
            end
        | Err e => Ok (set_cell s l (expose_key G (hp s l) []), Some e)
        | Panic => Panic
        | OutOfFuel => OutOfFuel
        end
  end.
Proof. reflexivity. Qed.
Lemma hl_elems_S f s l b : hl_elems E G (S f) s l b =
  do (s1, y) <- hj_value E G (js_fuel (fst (skipWB b))) s (c_own (hp s l)) (fst (skipWB b));
  match y with
  | inl e => Ok (s1, Some e)
  | inr (p, b2) =>
      let s2 := set_cell s1 l (w_arr (hp s1 l) (c_arr (hp s1 l) ++ [p])) in
      match skipWB b2 with
      | ([], sk) => Ok (s2, Some (ErrJson JET_NoArrBack sk b2))
      | (x :: r, sk) =>
          if x =? 44 then hl_elems E G f s2 l r
          else if x =? 93 then Ok (s2, None)
          else Ok (s2, Some (ErrJson JET_NoValueSplit sk b2))
      end
  end.
Proof. reflexivity. Qed.

(** What the loop leaves in an object. *)
Definition pairs_in (s : st) (l : nat) (s' : st) (kvs : list (bytes * value)) : Prop :=
  c_dt (hp s' l) = TObject /\ c_unesc (hp s' l) = c_unesc (hp s l) /\
  Forall2 (kvR (shows (hp s'))) (c_kvs (hp s' l)) kvs.
Lemma next_clean cl : no_stale cl -> next_kv cl = empty_kv.
Proof. unfold no_stale, next_kv. destruct (c_spare cl) as [|kv r]; auto. intros F. inversion F. auto. Qed.
Lemma push_clean cl k p : no_stale cl -> no_stale (push_kv G cl k p).
Proof.
  unfold no_stale, push_kv. destruct (c_spare cl) as [|kv r]; cbn [w_obj c_spare].
  - intros _. apply Forall_forall. intros x X. apply repeat_spec in X. auto.
  - intros F. inversion F. auto.
Qed.

Lemma load_members_sim f : forall s1 s l c b acc, wf s1 -> ok_cache N s1 c -> live s1 l -> (5 <= l)%nat ->
  grown s1 c l s -> c_own (hp s l) = c -> c_dt (hp s l) = TObject ->
  Forall2 (kvR (shows (hp s))) (c_kvs (hp s l)) acc ->
  match load_members E f b acc with
  | (kvs, Ok _) => exists s', hl_members E G f s l b = Ok (s', None) /\ pairs_in s l s' kvs
  | (kvs, Err e) => exists s', hl_members E G f s l b = Ok (s', Some e) /\ (no_stale (hp s l) -> pairs_in s l s' kvs)
  | (_, Panic) => hl_members E G f s l b = Panic
  | (_, OutOfFuel) => hl_members E G f s l b = OutOfFuel
  end.
Proof.
  induction f as [|f IH]; intros s1 s l c b acc W1 OC L1 L5 GR OW D F; [reflexivity|].
  rewrite load_members_S, hl_members_S. cbv zeta.
  assert (EXK : forall k, no_stale (hp s l) -> pairs_in s l (set_cell s l (expose_key G (hp s l) k)) (acc ++ [(k, VNilP)])).
  { intros k NS. unfold expose_key. rewrite (next_clean _ NS). cbn [empty_kv snd].
    destruct (push_step s1 c l s k VNilP None s acc W1 OC L1 L5 GR D F) as (GR3 & HR3 & F3); [split; reflexivity|].
    destruct (push_fields G (hp s l) k None) as (P1 & P2 & P3).
    split; [rewrite HR3, P3; exact D|]. split; [rewrite HR3; exact P2|exact F3]. }
  assert (EX : no_stale (hp s l) -> pairs_in s l (set_cell s l (expose G (hp s l))) (acc ++ [([], VNilP)])).
  { intros NS. replace (expose G (hp s l)) with (expose_key G (hp s l) []); [apply EXK; auto|].
    unfold expose, expose_key. rewrite (next_clean _ NS). reflexivity. }
  destruct (skipWB b) as [[|x r1] sk]; [eexists; split; [reflexivity|exact EX]|].
  destruct (negb (x =? 34)); [eexists; split; [reflexivity|exact EX]|].
  destruct (parseJsonKey r1) as [[k b2]|e| |]; auto; [|eexists; split; [reflexivity|apply EXK]].
  destruct (skipWB b2) as [[|c3 r3] sk2]; [eexists; split; [reflexivity|apply EXK]|].
  destruct (negb (c3 =? 58)); [eexists; split; [reflexivity|apply EXK]|].
  pose proof (grown_live _ _ _ _ L1 GR) as L. pose proof (grown_cache _ _ _ _ W1 OC L1 GR) as OCs.
  rewrite OW. set (b4 := fst (skipWB r3)).
  pose proof (proj1 (jsim_all (js_fuel b4)) s c b4 (gr_wf _ _ _ _ GR) OCs) as HV.
  destruct (js_value E (js_fuel b4) b4) as [[v b5]|e| |]; [| |rewrite HV; reflexivity|rewrite HV; reflexivity].
  2: { destruct HV as (s2 & H1 & K). rewrite H1. cbn [bind]. eexists. split; [reflexivity|]. intros NS.
    pose proof (K l L) as HL. destruct (push_fields G (hp s l) k None) as (P1 & P2 & P3).
    assert (HR : hp (set_cell s2 l (push_kv G (hp s2 l) k None)) l = push_kv G (hp s l) k None)
      by (cbn [set_cell hp]; rewrite upd_same, HL; reflexivity).
    split; [rewrite HR, P3; exact D|]. split; [rewrite HR; exact P2|]. rewrite HR, P1.
    apply Forall2_app; [|constructor; [|constructor]].
    - eapply F2_in; [exact F|]. intros a u IN [X SH]. split; [exact X|].
      apply (grown_shows s1 c l s _ _ _ W1 L1 L5 GR); auto.
      + intros z LZ NZ. cbn [set_cell hp]. rewrite upd_other by auto. apply K; auto.
      + intros y Y. apply (sees_obj G); auto. rewrite <- Y. apply in_map. exact IN.
    - split; [reflexivity|]. exists VNilP. split; [constructor|reflexivity]. }
  destruct HV as (s2 & p & H1 & H3). rewrite H1. cbn [bind]. cbv zeta.
  destruct (push_step s1 c l s k v p s2 acc W1 OC L1 L5 GR D F H3) as (GR3 & HR3 & F3).
  destruct (push_fields G (hp s l) k p) as (P1 & P2 & P3).
  set (s3 := set_cell s2 l (push_kv G (hp s2 l) k p)) in *.
  assert (D3 : c_dt (hp s3 l) = TObject) by (rewrite HR3, P3; exact D).
  assert (U3 : c_unesc (hp s3 l) = c_unesc (hp s l)) by (rewrite HR3; exact P2).
  assert (O3 : c_own (hp s3 l) = c). { rewrite HR3. unfold push_kv. destruct (c_spare (hp s l)); exact OW. }
  assert (HERE : pairs_in s l s3 (acc ++ [(k, v)])) by (split; [exact D3|split; [exact U3|exact F3]]).
  assert (ON : forall s' kvs, pairs_in s3 l s' kvs -> pairs_in s l s' kvs).
  { intros s' kvs (A & B & C). split; [exact A|]. split; [rewrite B; exact U3|exact C]. }
  destruct (skipWB b5) as [[|c6 r6] sk3]; [eexists; split; [reflexivity|auto]|].
  destruct (c6 =? 44).
  { pose proof (IH s1 s3 l c r6 (acc ++ [(k, v)]) W1 OC L1 L5 GR3 O3 D3 F3) as X.
    destruct (load_members E f r6 (acc ++ [(k, v)])) as [kvs [[]|e| |]]; auto.
    - destruct X as (s' & A & B). exists s'. auto.
    - destruct X as (s' & A & B). exists s'. split; [exact A|]. intros NS. apply ON, B. rewrite HR3. apply push_clean; auto. }
  destruct (c6 =? 125); [|eexists; split; [reflexivity|auto]]. exists s3. auto.
Qed.

Definition elems_in (l : nat) (s' : st) (vs : list value) : Prop :=
  c_dt (hp s' l) = TArray /\ Forall2 (shows (hp s')) (c_arr (hp s' l)) vs.
Lemma load_elems_sim f : forall s1 s l c b acc, wf s1 -> ok_cache N s1 c -> live s1 l -> (5 <= l)%nat ->
  grown s1 c l s -> c_own (hp s l) = c -> c_dt (hp s l) = TArray -> Forall2 (shows (hp s)) (c_arr (hp s l)) acc ->
  match load_elems E f b acc with
  | (vs, Ok _) => exists s', hl_elems E G f s l b = Ok (s', None) /\ elems_in l s' vs
  | (vs, Err e) => exists s', hl_elems E G f s l b = Ok (s', Some e) /\ elems_in l s' vs
  | (_, Panic) => hl_elems E G f s l b = Panic
  | (_, OutOfFuel) => hl_elems E G f s l b = OutOfFuel
  end.
Proof.
  induction f as [|f IH]; intros s1 s l c b acc W1 OC L1 L5 GR OW D F; [reflexivity|].
  rewrite load_elems_S, hl_elems_S, OW. set (b4 := fst (skipWB b)).
  pose proof (grown_live _ _ _ _ L1 GR) as L. pose proof (grown_cache _ _ _ _ W1 OC L1 GR) as OCs.
  pose proof (proj1 (jsim_all (js_fuel b4)) s c b4 (gr_wf _ _ _ _ GR) OCs) as HV.
  destruct (js_value E (js_fuel b4) b4) as [[v b5]|e| |]; [| |rewrite HV; reflexivity|rewrite HV; reflexivity].
  2: { destruct HV as (s2 & H1 & K). rewrite H1. cbn [bind]. exists s2. split; [reflexivity|].
    pose proof (K l L) as HL. unfold elems_in. rewrite HL. split; [exact D|].
    eapply F2_in; [exact F|]. intros a u IN SH. apply (grown_shows s1 c l s _ _ _ W1 L1 L5 GR); auto.
    intros y ->. apply (sees_arr G); auto. }
  destruct HV as (s2 & p & H1 & H3). rewrite H1. cbn [bind]. cbv zeta.
  destruct (append_step s1 c l s v p s2 acc W1 OC L1 L5 GR D F H3) as (GR3 & HR3 & F3).
  set (s3 := set_cell s2 l (w_arr (hp s2 l) (c_arr (hp s2 l) ++ [p]))) in *.
  assert (D3 : c_dt (hp s3 l) = TArray) by (rewrite HR3; exact D).
  assert (O3 : c_own (hp s3 l) = c) by (rewrite HR3; exact OW).
  assert (HERE : elems_in l s3 (acc ++ [v])) by (split; [exact D3|exact F3]).
  destruct (skipWB b5) as [[|c6 r6] sk3]; [eexists; split; [reflexivity|auto]|].
  destruct (c6 =? 44); [exact (IH s1 s3 l c r6 (acc ++ [v]) W1 OC L1 L5 GR3 O3 D3 F3)|].
  destruct (c6 =? 93); (exists s3; auto).
Qed.

(** A receiver that is no object keeps everything but its unused pair list; one that is no array, all but its
    unused element list. *)
Definition but_kvs (c c' : cell) : Prop := exists kvs sp, c' = w_obj c (c_unesc c) kvs sp.
Definition but_arr (c c' : cell) : Prop := exists a, c' = w_arr c a.
Lemma push_but c k p : but_kvs c (push_kv G c k p).
Proof. unfold push_kv. destruct (c_spare c); eexists; eexists; reflexivity. Qed.
Lemma but_kvs_trans a b c : but_kvs a b -> but_kvs b c -> but_kvs a c.
Proof. intros (k & q & ->) (k' & q' & ->). exists k', q'. reflexivity. Qed.
Lemma hl_members_frame f : forall s l b acc, wf s -> live s l -> (5 <= l)%nat ->
  match load_members E f b acc with
  | (_, Ok _) => exists s', hl_members E G f s l b = Ok (s', None) /\ but_kvs (hp s l) (hp s' l)
  | (_, Err e) => exists s', hl_members E G f s l b = Ok (s', Some e) /\ but_kvs (hp s l) (hp s' l)
  | (_, Panic) => hl_members E G f s l b = Panic
  | (_, OutOfFuel) => hl_members E G f s l b = OutOfFuel
  end.
Proof.
  induction f as [|f IH]; intros s l b acc W L L5; [reflexivity|].
  rewrite load_members_S, hl_members_S. cbv zeta.
  assert (WR : forall s2 k p, hp s2 l = hp s l -> but_kvs (hp s l) (hp (set_cell s2 l (push_kv G (hp s2 l) k p)) l)).
  { intros s2 k p Q. cbn [set_cell hp]. rewrite upd_same, Q. apply push_but. }
  destruct (skipWB b) as [[|x r1] sk]; [eexists; split; [reflexivity|apply WR; reflexivity]|].
  destruct (negb (x =? 34)); [eexists; split; [reflexivity|apply WR; reflexivity]|].
  destruct (parseJsonKey r1) as [[k b2]|e| |]; auto; [|eexists; split; [reflexivity|apply WR; reflexivity]].
  destruct (skipWB b2) as [[|c3 r3] sk2]; [eexists; split; [reflexivity|apply WR; reflexivity]|].
  destruct (negb (c3 =? 58)); [eexists; split; [reflexivity|apply WR; reflexivity]|].
  set (b4 := fst (skipWB r3)).
  assert (OC : ok_cache N s (c_own (hp s l))) by (apply own_okc; auto).
  pose proof (proj1 (jsim_all (js_fuel b4)) s _ b4 W OC) as HV.
  destruct (js_value E (js_fuel b4) b4) as [[v b5]|e| |]; [| |rewrite HV; reflexivity|rewrite HV; reflexivity].
  2: { destruct HV as (s2 & H1 & K). rewrite H1. cbn [bind]. eexists. split; [reflexivity|]. apply WR. apply K; auto. }
  destruct HV as (s2 & p & H1 & H3). rewrite H1. cbn [bind]. cbv zeta.
  destruct (decoded_frame _ _ _ _ _ l H3 L) as [HL L2]. pose proof (WR s2 k p HL) as BK.
  destruct (proj1 (tr_hj N N E G (js_fuel b4)) s _ b4 s2 _ W OC H1) as [T OO].
  assert (OL : ok_loc N s2 l) by (split; [apply L2|intros []]).
  assert (W2 : wf s2) by apply T.
  pose proof (tr_push N N G s2 l k p W2 OL (OO _ _ eq_refl)) as T3.
  assert (W3 : wf (set_cell s2 l (push_kv G (hp s2 l) k p))) by apply T3.
  assert (L3 : live (set_cell s2 l (push_kv G (hp s2 l) k p)) l) by (apply live_set_cell; auto).
  destruct (skipWB b5) as [[|c6 r6] sk3]; [eexists; split; [reflexivity|exact BK]|].
  destruct (c6 =? 44).
  { pose proof (IH _ l r6 (acc ++ [(k, v)]) W3 L3 L5) as X.
    destruct (load_members E f r6 (acc ++ [(k, v)])) as [kvs [[]|e| |]]; auto;
      (destruct X as (s' & A & B); exists s'; split; [exact A|eapply but_kvs_trans; eauto]). }
  destruct (c6 =? 125); (eexists; split; [reflexivity|exact BK]).
Qed.
Lemma hl_elems_frame f : forall s l b acc, wf s -> live s l -> (5 <= l)%nat ->
  match load_elems E f b acc with
  | (_, Ok _) => exists s', hl_elems E G f s l b = Ok (s', None) /\ but_arr (hp s l) (hp s' l)
  | (_, Err e) => exists s', hl_elems E G f s l b = Ok (s', Some e) /\ but_arr (hp s l) (hp s' l)
  | (_, Panic) => hl_elems E G f s l b = Panic
  | (_, OutOfFuel) => hl_elems E G f s l b = OutOfFuel
  end.
Proof.
  induction f as [|f IH]; intros s l b acc W L L5; [reflexivity|].
  rewrite load_elems_S, hl_elems_S. set (b4 := fst (skipWB b)).
  assert (OC : ok_cache N s (c_own (hp s l))) by (apply own_okc; auto).
  pose proof (proj1 (jsim_all (js_fuel b4)) s _ b4 W OC) as HV.
  destruct (js_value E (js_fuel b4) b4) as [[v b5]|e| |]; [| |rewrite HV; reflexivity|rewrite HV; reflexivity].
  2: { destruct HV as (s2 & H1 & K). rewrite H1. cbn [bind]. eexists. split; [reflexivity|]. exists (c_arr (hp s l)).
    rewrite K by auto. destruct (hp s l); reflexivity. }
  destruct HV as (s2 & p & H1 & H3). rewrite H1. cbn [bind]. cbv zeta.
  destruct (decoded_frame _ _ _ _ _ l H3 L) as [HL L2].
  assert (BK : but_arr (hp s l) (hp (set_cell s2 l (w_arr (hp s2 l) (c_arr (hp s2 l) ++ [p]))) l)).
  { cbn [set_cell hp]. rewrite upd_same, HL. eexists. reflexivity. }
  destruct (proj1 (tr_hj N N E G (js_fuel b4)) s _ b4 s2 _ W OC H1) as [T OO].
  assert (OL : ok_loc N s2 l) by (split; [apply L2|intros []]).
  assert (W2 : wf s2) by apply T.
  pose proof (tr_append N N s2 l p W2 OL (OO _ _ eq_refl)) as T3.
  set (s3 := set_cell s2 l (w_arr (hp s2 l) (c_arr (hp s2 l) ++ [p]))) in *.
  assert (W3 : wf s3) by apply T3. assert (L3 : live s3 l) by (apply live_set_cell; auto).
  destruct (skipWB b5) as [[|c6 r6] sk3]; [eexists; split; [reflexivity|exact BK]|].
  destruct (c6 =? 44).
  { pose proof (IH _ l r6 (acc ++ [v]) W3 L3 L5) as X.
    destruct (load_elems E f r6 (acc ++ [v])) as [kvs [[]|e| |]]; auto;
      (destruct X as (s' & A & a & B); exists s'; split; [exact A|]; destruct BK as (a' & BK); rewrite BK in B; exists a; exact B). }
  destruct (c6 =? 93); (eexists; split; [reflexivity|exact BK]).
Qed.

(** A receiver just cleared. *)
Record cleared (cl : cell) : Prop := {
  cl_kvs : c_kvs cl = []; cl_unesc : c_unesc cl = false; cl_arr : c_dt cl = TArray -> c_arr cl = [] }.
Lemma rep_leaf h h' l v : rep h (Some l) v -> cleared (h l) ->
  c_dt (h' l) = c_dt (h l) -> c_ext (h' l) = c_ext (h l) -> c_unesc (h' l) = c_unesc (h l) -> c_str (h' l) = c_str (h l) ->
  c_bin (h' l) = c_bin (h l) -> c_sv (h' l) = c_sv (h l) ->
  (c_dt (h l) = TObject -> c_kvs (h' l) = []) -> (c_dt (h l) = TArray -> c_arr (h' l) = []) ->
  rep h' (Some l) v.
Proof.
  intros R [CK CU CA] A1 A2 A3 A4 A5 A6 A7 A8.
  inversion R as [|l0 kvs D F|l0 vs D F|l0 D|l0 D|l0 D|l0 D|l0 D|l0 D|l0 D|l0 D|l0 D|l0 D|l0 D|l0 D|l0 D]; subst l0;
    rewrite <- ?A2, <- ?A3, <- ?A4, <- ?A5, <- ?A6; try (constructor; congruence).
  - apply rep_obj; [congruence|]. rewrite CK in F. inversion F. rewrite A7 by auto. constructor.
  - apply rep_arr; [congruence|]. rewrite CA in F by auto. inversion F. rewrite A8 by auto. constructor.
Qed.
Lemma clear_rep h h' l v : rep h (Some l) v -> h' l = clear_cell (h l) -> rep h' (Some l) (clear_value v).
Proof.
  intros R Q.
  inversion R as [|l0 kvs D F|l0 vs D F|l0 D|l0 D|l0 D|l0 D|l0 D|l0 D|l0 D|l0 D|l0 D|l0 D|l0 D|l0 D|l0 D]; subst l0;
    unfold clear_cell in Q; rewrite D in Q; cbn [clear_value].
  - pose proof (rep_obj h' l [] ltac:(rewrite Q; reflexivity)) as X. rewrite Q in X. apply X. constructor.
  - apply rep_arr; rewrite Q; [reflexivity|constructor].
  - pose proof (rep_str h' l ltac:(rewrite Q; reflexivity)) as X. rewrite Q in X. exact X.
  - pose proof (rep_raw h' l ltac:(rewrite Q; reflexivity)) as X. rewrite Q in X. exact X.
  - pose proof (rep_int h' l ltac:(rewrite Q; reflexivity)) as X. rewrite Q in X. exact X.
  - pose proof (rep_flt h' l ltac:(rewrite Q; reflexivity)) as X. rewrite Q in X. exact X.
  - pose proof (rep_dbl h' l ltac:(rewrite Q; reflexivity)) as X. rewrite Q in X. exact X.
  - pose proof (rep_dat h' l ltac:(rewrite Q; reflexivity)) as X. rewrite Q in X. exact X.
  - pose proof (rep_bin h' l ltac:(rewrite Q; reflexivity)) as X. rewrite Q in X. exact X.
  - pose proof (rep_exb h' l ltac:(rewrite Q; reflexivity)) as X. rewrite Q in X. exact X.
  - apply rep_null; rewrite Q; reflexivity.
  - apply rep_true; rewrite Q; reflexivity.
  - apply rep_false; rewrite Q; reflexivity.
  - apply rep_nan; rewrite Q; reflexivity.
  - apply rep_inf; rewrite Q; reflexivity.
Qed.
Lemma rep_type h l v : rep h (Some l) v ->
  match v with
  | VObject _ _ => c_dt (h l) = TObject | VArray _ => c_dt (h l) = TArray
  | VInt e _ => c_dt (h l) = TInt /\ c_ext (h l) = e
  | _ => c_dt (h l) <> TObject /\ c_dt (h l) <> TArray /\ c_dt (h l) <> TInt
  end.
Proof. intros R. inversion R; subst; auto; repeat split; congruence. Qed.

(** The values that are written. *)
Lemma jput_raw s l x : (5 <= l)%nat -> shows (hp (jput s l (VRawString x))) (Some l) (VRawString x).
Proof.
  intros L. cbn [jput]. unfold Reset. rewrite not_shared by auto. exists (VRawString x). split; [|reflexivity].
  pose proof (rep_raw (hp (set_cell (set_cell s l (reset_cell (hp s l) TRaw)) l (w_str (hp (set_cell s l (reset_cell (hp s l) TRaw)) l) x))) l) as X.
  cbn [set_cell hp] in *. rewrite !upd_same in X. cbn [w_str c_str c_dt reset_cell] in X. rewrite !upd_same. apply X. reflexivity.
Qed.
Lemma jput_dat s l d : (5 <= l)%nat -> shows (hp (jput s l (VDateTime d))) (Some l) (VDateTime d).
Proof.
  intros L. cbn [jput]. unfold SetDouble, Reset. rewrite !not_shared by auto. cbn [set_cell hp]. rewrite !upd_same.
  change (is_dbl (c_dt (reset_cell (hp s l) TDateTime))) with true. cbv iota. cbn [set_cell hp]. rewrite upd_same.
  apply sh_dat; rewrite upd_same; reflexivity.
Qed.
Lemma jput_const s l v t : (5 <= l)%nat -> jput s l v = Reset s l t ->
  match t with TTrue => v = VTrue | TFalse => v = VFalse | TNull => v = VNull | TNan => v = VNan | TInf => v = VInf | _ => False end ->
  shows (hp (jput s l v)) (Some l) v.
Proof.
  intros L -> T. unfold Reset. rewrite not_shared by auto. cbn [set_cell hp].
  destruct t; try (destruct T; fail); subst v; (eexists; split; [constructor; rewrite upd_same; reflexivity|reflexivity]).
Qed.
Lemma jput_int s l v n : (5 <= l)%nat -> - 2^63 <= n < 2^63 -> rep (hp s) (Some l) v ->
  shows (hp (jput s l (VInt 0 n))) (Some l) (JsonModel.set_int v n).
Proof.
  intros L R RV. cbn [jput]. unfold SetInt, ensure.
  assert (X : exists e, JsonModel.set_int v n = VInt e n /\ (c_dt (hp s l) = TInt -> c_ext (hp s l) = e) /\ (c_dt (hp s l) <> TInt -> e = 0)).
  { apply rep_type in RV. destruct v; cbn [JsonModel.set_int];
      repeat match goal with H : _ /\ _ |- _ => destruct H end; eexists; (split; [reflexivity|]); split; intros; congruence. }
  destruct X as (e & -> & X1 & X2). exists (VInt e n). split; [|reflexivity].
  destruct (vt_eqb (c_dt (hp s l)) TInt) eqn:D.
  - apply (proj1 (HeapBase.vt_eqb_eq _ _)) in D.
    pose proof (rep_int (hp (set_cell s l (w_sv (hp s l) (to_u64 n)))) l) as Y. cbn [set_cell hp] in *. rewrite upd_same in Y.
    cbn [w_sv c_dt c_ext c_sv] in Y. rewrite i64_u64 in Y by auto. rewrite X1 in Y by auto. auto.
  - apply vt_eqb_neq in D. rewrite X2 by auto. unfold Reset. rewrite not_shared by auto. cbn [set_cell hp]. rewrite !upd_same.
    set (h := upd _ l _). pose proof (rep_int h l) as Y. unfold h in *. rewrite upd_same in Y.
    cbn [w_sv c_dt c_ext c_sv reset_cell] in Y. rewrite i64_u64 in Y by auto. auto.
Qed.
Lemma jput_shows s l b v t : (5 <= l)%nat -> is_num_start (hd 0 b) = false -> js_scalar E b = Ok (v, t) ->
  shows (hp (jput s l v)) (Some l) v /\ low v = v.
Proof.
  intros L NS. destruct b as [|c r]; [discriminate|]. unfold js_scalar. cbn [hd] in NS. unfold is_num_start in NS.
  destruct (c =? 34).
  { destruct (parseJsonString r) as [[ss t1]| | |]; try discriminate. cbn [bind]. intros H; injection H as <- _.
    unfold json_string_value. destruct (x_jsontime E ss); [split; [apply jput_dat; auto|reflexivity]|split; [apply jput_raw; auto|reflexivity]]. }
  destruct (c =? 116). { clear NS. destruct (_ || _); [intros H; discriminate H|]. intros H; injection H as <- _. split; [apply (jput_const s l VTrue TTrue); auto|reflexivity]. }
  destruct (c =? 102). { clear NS. destruct (_ || _); [discriminate|]. intros H; injection H as <- _. split; [apply (jput_const s l VFalse TFalse); auto|reflexivity]. }
  destruct (c =? 110); [clear NS|discriminate].
  destruct (_ || _); [destruct (_ && _); [|discriminate]|]; intros H; injection H as <- _.
  - split; [apply (jput_const s l VNan TNan); auto|reflexivity].
  - split; [apply (jput_const s l VNull TNull); auto|reflexivity].
Qed.

(** The receiver after a call that failed. *)
Theorem load_json s s1 l b v : wf s -> Clear s l = Ok s1 -> live s1 l -> (5 <= l)%nat -> rep (hp s) (Some l) v ->
  match LoadFromJson E v b with
  | (v', Ok _) => exists s', h_LoadFromJson E G s l b = Ok (s', None) /\ shows (hp s') (Some l) (low v')
  | (v', Err e) => exists s', h_LoadFromJson E G s l b = Ok (s', Some e) /\
      ((c_dt (hp s l) = TObject -> no_stale (hp s l)) -> shows (hp s') (Some l) (low v'))
  | (_, Panic) => h_LoadFromJson E G s l b = Panic
  | (_, OutOfFuel) => h_LoadFromJson E G s l b = OutOfFuel
  end.
Proof.
  intros W CL L L5 R.
  assert (OL : ok_loc N s l). { split; [|intros []]. rewrite <- (Clear_nx s l s1 CL). apply L. }
  pose proof (tr_Clear N N s l s1 W OL CL) as T. assert (W1 : wf s1) by apply T.
  pose proof (Clear_cell s l s1 CL) as HC. destruct (clear_same (hp s l)) as (C1 & C2 & C3 & C4 & C5 & C6 & C7).
  pose proof (clear_rep (hp s) (hp s1) l v R HC) as R1.
  assert (CD : cleared (hp s1 l)). { constructor; rewrite HC; auto. rewrite C1. auto. }
  assert (NSX : (c_dt (hp s l) = TObject -> no_stale (hp s l)) -> c_dt (hp s1 l) = TObject -> no_stale (hp s1 l)).
  { intros NS D. rewrite HC in *. rewrite C1 in D. specialize (NS D). unfold no_stale, clear_cell in *. rewrite D. cbn [c_spare].
    apply Forall_app. split; [|exact NS]. apply Forall_forall. intros x X. apply in_map_iff in X as (y & <- & _). reflexivity. }
  unfold LoadFromJson, h_LoadFromJson. rewrite CL. cbn [bind].
  set (v1 := clear_value v) in *. clearbody v1. clear T HC C1 C2 C3 C4 C5 C6 C7 R OL CL.
  assert (SAME : shows (hp s1) (Some l) (low v1)) by (exists v1; auto).
  destruct (fst (skipWB b)) as [|x r]; [exists s1; auto|]. clear b.
  unfold parseJson2Value, h_parseJson2Value.
  assert (OC : ok_cache N s1 (c_own (hp s1 l))) by (apply own_okc; auto).
  destruct (x =? 123).
  { destruct (skipWB r) as [[|c1 t] sk]; [exists s1; auto|]. destruct (c1 =? 125); [exists s1; auto|].
    destruct (vt_eqb (c_dt (hp s1 l)) TObject) eqn:DO.
    - apply (proj1 (HeapBase.vt_eqb_eq _ _)) in DO.
      assert (GR : grown s1 (c_own (hp s1 l)) l s1).
      { apply grown_refl; auto. intros y Y. apply (sees_obj G) in Y; auto. rewrite (cl_kvs _ CD) in Y. destruct Y. }
      pose proof (load_members_sim (js_fuel (c1 :: t)) s1 s1 l _ (c1 :: t) [] W1 OC L L5 GR eq_refl DO) as X.
      rewrite (cl_kvs _ CD) in X. specialize (X (Forall2_nil _)).
      assert (FIN : forall s' kvs, pairs_in s1 l s' kvs -> shows (hp s') (Some l) (low (with_pairs v1 kvs))).
      { intros s' kvs (A & B & C).
        assert (LK : Forall (fun kv => low (snd kv) = snd kv) kvs).
        { clear -C. induction C as [|a b0 la lb [_ (w & _ & X)] C IHC]; constructor; auto. rewrite <- X. apply low_low. }
        inversion R1; subst; try congruence. cbn [with_pairs low].
        replace (map (fun kv => (fst kv, low (snd kv))) kvs) with kvs.
        - apply shows_obj; auto.
        - clear -LK. induction LK as [|[k u] kvs E1 _ IHK]; [reflexivity|]. cbn [map fst snd] in *. rewrite E1, <- IHK. reflexivity. }
      destruct (load_members E (js_fuel (c1 :: t)) (c1 :: t) []) as [kvs [[]|e| |]]; auto.
      + destruct X as (s' & A & B). exists s'. auto.
      + destruct X as (s' & A & B). exists s'. split; [exact A|]. intros NS. apply FIN, B, NSX; auto.
    - apply vt_eqb_neq in DO.
      pose proof (hl_members_frame (js_fuel (c1 :: t)) s1 l (c1 :: t) [] W1 L L5) as X.
      assert (FIN : forall s' kvs, but_kvs (hp s1 l) (hp s' l) -> shows (hp s') (Some l) (low (with_pairs v1 kvs))).
      { intros s' kvs (k & q & B). replace (with_pairs v1 kvs) with v1.
        - exists v1. split; [|reflexivity]. apply (rep_leaf (hp s1)); auto; rewrite B; cbn; auto; [congruence|apply CD].
        - apply rep_type in R1. destruct v1; auto. congruence. }
      destruct (load_members E (js_fuel (c1 :: t)) (c1 :: t) []) as [kvs [[]|e| |]]; auto;
        (destruct X as (s' & A & B); exists s'; auto). }
  destruct (x =? 91).
  { destruct (skipWB r) as [[|c1 t] sk]; [exists s1; auto|]. destruct (c1 =? 93); [exists s1; auto|].
    destruct (vt_eqb (c_dt (hp s1 l)) TArray) eqn:DO.
    - apply (proj1 (HeapBase.vt_eqb_eq _ _)) in DO.
      assert (GR : grown s1 (c_own (hp s1 l)) l s1).
      { apply grown_refl; auto. intros y Y. apply (sees_arr G) in Y; auto. rewrite (cl_arr _ CD) in Y by auto. destruct Y. }
      pose proof (load_elems_sim (js_fuel (c1 :: t)) s1 s1 l _ (c1 :: t) [] W1 OC L L5 GR eq_refl DO) as X.
      rewrite (cl_arr _ CD) in X by auto. specialize (X (Forall2_nil _)).
      assert (FIN : forall s' vs, elems_in l s' vs -> shows (hp s') (Some l) (low (with_elems v1 vs))).
      { intros s' vs (A & C).
        assert (LK : Forall (fun u => low u = u) vs).
        { clear -C. induction C as [|a b0 la lb (w & _ & X) C IHC]; constructor; auto. rewrite <- X. apply low_low. }
        inversion R1; subst; try congruence. cbn [with_elems low].
        replace (map low vs) with vs.
        - apply shows_arr; auto.
        - clear -LK. induction LK as [|u us E1 _ IHK]; [reflexivity|]. cbn [map] in *. rewrite E1, <- IHK. reflexivity. }
      destruct (load_elems E (js_fuel (c1 :: t)) (c1 :: t) []) as [kvs [[]|e| |]]; auto;
        (destruct X as (s' & A & B); exists s'; auto).
    - apply vt_eqb_neq in DO.
      pose proof (hl_elems_frame (js_fuel (c1 :: t)) s1 l (c1 :: t) [] W1 L L5) as X.
      assert (FIN : forall s' vs, but_arr (hp s1 l) (hp s' l) -> shows (hp s') (Some l) (low (with_elems v1 vs))).
      { intros s' vs (k & B). replace (with_elems v1 vs) with v1.
        - exists v1. split; [|reflexivity]. apply (rep_leaf (hp s1)); auto; rewrite B; cbn; auto; [|congruence]. intros _. apply CD.
        - apply rep_type in R1. destruct v1; auto. congruence. }
      destruct (load_elems E (js_fuel (c1 :: t)) (c1 :: t) []) as [kvs [[]|e| |]]; auto;
        (destruct X as (s' & A & B); exists s'; auto). }
  destruct (is_num_start x) eqn:NU.
  { unfold is_num_start in NU. destruct (x =? 34); [discriminate|]. destruct (x =? 116); [discriminate|].
    destruct (x =? 102); [discriminate|]. destruct (x =? 110); [discriminate|].
    unfold parseJsonNum2V, js_num2v. destruct (num_end (x :: r)) as [i|]; [|exists s1; auto].
    clear NU. destruct (_ || _).
    - destruct (inf_nan (skipn i (x :: r))) as [[u t]|e| |] eqn:Q; cbn [bind].
      + exists (jput s1 l u). split; [reflexivity|].
        apply inf_nan_ok in Q as [-> | ->]; [apply (jput_const s1 l VInf TInf)|apply (jput_const s1 l VNan TNan)]; auto.
      + exists s1. auto.
      + exfalso. unfold inf_nan in Q. destruct (3 <=? _); [|discriminate]. destruct (fold_is _ _); [discriminate|]. destruct (fold_is _ _); discriminate.
      + exfalso. unfold inf_nan in Q. destruct (3 <=? _); [|discriminate]. destruct (fold_is _ _); [discriminate|]. destruct (fold_is _ _); discriminate.
    - eexists. split; [reflexivity|].
      replace (low (JsonModel.set_int v1 (x_str2int E (firstn i (x :: r)) 0))) with (JsonModel.set_int v1 (x_str2int E (firstn i (x :: r)) 0))
        by (destruct v1; reflexivity).
      apply jput_int; auto. apply NE. lia. }
  pose proof (jput_shows s1 l (x :: r)) as JP. cbn [hd] in JP.
  assert (SC : forall o, (do (u, _) <- js_scalar E (x :: r); Ok u) = o ->
     match o with
     | Ok u => exists s', Ok (jput s1 l u, @None gerr) = Ok (s', None) /\ shows (hp s') (Some l) (low u)
     | _ => True end).
  { intros o <-. destruct (js_scalar E (x :: r)) as [[u t]|e| |] eqn:Q; cbn [bind]; auto.
    destruct (JP u t L5 NU eq_refl) as [A B]. eexists. split; [reflexivity|]. rewrite B. exact A. }
  specialize (SC _ eq_refl). clear JP. unfold js_scalar in *. unfold is_num_start in NU.
  destruct (x =? 34).
  { destruct (parseJsonString r) as [[ss t]|e| |]; cbn [bind] in *; auto. exists s1; auto. }
  destruct (x =? 116). { clear NU. destruct (_ || _); cbn [bind] in *; auto. exists s1; auto. }
  destruct (x =? 102). { clear NU. destruct (_ || _); cbn [bind] in *; auto. exists s1; auto. }
  destruct (x =? 110); [clear NU|discriminate].
  destruct (_ || _); cbn [bind] in *; auto. destruct (_ && _); cbn [bind] in *; auto. exists s1; auto.
Qed.
End JsonLoadThms.
