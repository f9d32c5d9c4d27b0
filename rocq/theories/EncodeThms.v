(** The encoders on memory write what the tree encoders write, and only unescape on the way. *)
From Coq Require Import String.
From Verif Require Import Base Values Tactics MsgPackModel BsonModel JsonModel HeapModel HeapSpec HeapBase HeapConf HeapGet HeapClone HeapEqual EncodeModel.

Section Settle.
Variable E : env.
(** Keys may be unescaped / raw strings may be unescaped. *)
Variable ks rs : bool.
Definition kf (u : bool) (k : bytes) : bytes := if ks then (if u then k else x_unescape E k) else k.
Definition uf (u : bool) : bool := if ks then true else u.
Fixpoint nf (v : value) : value :=
  match v with
  | VObject u kvs => VObject (uf u) (map (fun kv => (kf u (fst kv), nf (snd kv))) kvs)
  | VArray l => VArray (map nf l)
  | VRawString x => if rs then VString (x_unescape E x) else v
  | _ => v
  end.
Definition settled_cell (c : cell) : cell :=
  match c_dt c with
  | TObject => unescape_cell E c
  | TRaw => snd (StringOf E c)
  | _ => c
  end.
Definition settles (h h' : nat -> cell) : Prop :=
  forall x, h' x = h x \/ (h' x = settled_cell (h x) /\ ((ks = true /\ c_dt (h x) = TObject) \/ (rs = true /\ c_dt (h x) = TRaw))).
Lemma settled_twice c : settled_cell (settled_cell c) = settled_cell c.
Proof.
  unfold settled_cell. destruct (c_dt c) eqn:D; try (rewrite D; reflexivity).
  - cbn [unescape_cell w_obj c_dt]. rewrite D. apply unescape_twice.
  - unfold StringOf. rewrite D. cbn. reflexivity.
Qed.
Lemma settles_refl h : settles h h. Proof. intros x; auto. Qed.
Lemma settles_trans h1 h2 h3 : settles h1 h2 -> settles h2 h3 -> settles h1 h3.
Proof.
  intros A B x. destruct (A x) as [Q|[Q D]], (B x) as [Q'|[Q' D']]; rewrite Q'; rewrite Q in *; auto.
  rewrite settled_twice. auto.
Qed.
Lemma settles_obj s l : ks = true -> c_dt (hp s l) = TObject -> settles (hp s) (hp (set_cell s l (unescape_cell E (hp s l)))).
Proof.
  intros K D x. cbn [set_cell hp]. destruct (Nat.eq_dec x l) as [->|Q]; [rewrite upd_same|rewrite upd_other by auto; auto].
  right. split; [unfold settled_cell; rewrite D; reflexivity|auto].
Qed.
Lemma settles_str s l : rs = true -> c_dt (hp s l) = TRaw -> settles (hp s) (hp (set_cell s l (snd (StringOf E (hp s l))))).
Proof.
  intros K D x. cbn [set_cell hp]. destruct (Nat.eq_dec x l) as [->|Q]; [rewrite upd_same|rewrite upd_other by auto; auto].
  right. split; [unfold settled_cell; rewrite D; reflexivity|auto].
Qed.
Lemma settles_arr h h' x : settles h h' -> c_dt (h x) = TArray -> h' x = h x.
Proof. intros L D. destruct (L x) as [Q|[_ [[_ Q]|[_ Q]]]]; congruence. Qed.

Definition frep (h : nat -> cell) (p : ptr) (v : value) : Prop := exists v', rep h p v' /\ nf v' = nf v.
Lemma frep_rep h p v : rep h p v -> frep h p v. Proof. exists v. auto. Qed.

Definition key_at (u0 u : bool) (a : bytes * ptr) (b : bytes * value) : Prop := kf u0 (fst a) = kf u (fst b).
Lemma frep_obj_inv h p u kvs : frep h p (VObject u kvs) -> exists l, p = Some l /\ c_dt (h l) = TObject /\
  uf (c_unesc (h l)) = uf u /\
  Forall2 (fun a b => kf (c_unesc (h l)) (fst a) = kf u (fst b) /\ frep h (snd a) (snd b)) (c_kvs (h l)) kvs.
Proof.
  intros (v' & R & Q). destruct v'; cbn [nf] in Q; try discriminate; [|destruct rs; discriminate]. injection Q as QU Q.
  apply rep_obj_inv in R as (l & -> & D & -> & F). exists l. split; [auto|split; [auto|split; [auto|]]].
  clear QU. revert kvs Q. induction F as [|a b la lb [K R] F IH]; intros [|kv kvs] Q; try discriminate; constructor.
  - cbn [map] in Q. injection Q as Q1 Q2 Q3. split; [congruence|]. exists (snd b). auto.
  - apply IH. cbn [map] in Q. injection Q as Q1 Q2 Q3. exact Q3.
Qed.
Lemma frep_arr_inv h p vs : frep h p (VArray vs) -> exists l, p = Some l /\ c_dt (h l) = TArray /\
  Forall2 (frep h) (c_arr (h l)) vs.
Proof.
  intros (v' & R & Q). destruct v'; cbn [nf] in Q; try discriminate; [|destruct rs; discriminate]. injection Q as Q.
  apply rep_arr_inv in R as (l0 & -> & D & F). exists l0. split; [auto|split; [auto|]].
  revert vs Q. induction F as [|a b la lb R F IH]; intros [|kv kvs] Q; try discriminate; constructor.
  - cbn [map] in Q. injection Q as Q1 Q2. exists b. auto.
  - apply IH. cbn [map] in Q. injection Q as Q1 Q2. exact Q2.
Qed.
Definition is_str (v : value) : bool := match v with VString _ | VRawString _ => true | _ => false end.
Definition is_box (v : value) : bool := match v with VObject _ _ | VArray _ => true | _ => false end.
(** Other scalars are there as they are. *)
Lemma frep_leaf h p v : frep h p v -> is_str v = false -> is_box v = false ->
  match p with None => v = VNilP | Some l => leaf (h l) = v /\ c_dt (h l) = tag v /\ v <> VNilP end.
Proof.
  intros (v' & R & Q) A B.
  assert (v' = v).
  { destruct v; cbn in A, B; try discriminate; destruct v'; cbn [nf] in Q; try discriminate;
      try (destruct rs; discriminate); congruence. }
  subst v'. inversion R; subst; cbn in A, B; try discriminate; auto; unfold leaf;
    match goal with D : c_dt _ = _ |- _ => rewrite D end; split; auto; split; auto; discriminate.
Qed.
(** A string is there, raw or not. *)
Lemma frep_str h p v : frep h p v -> is_str v = true ->
  exists l, p = Some l /\ ((c_dt (h l) = TString /\ nf (VString (c_str (h l))) = nf v) \/
                           (c_dt (h l) = TRaw /\ nf (VRawString (c_str (h l))) = nf v)).
Proof.
  intros (v' & R & Q) A. inversion R; subst; try (destruct v; cbn in A; try discriminate; cbn [nf] in Q; try discriminate; destruct rs; discriminate);
    exists l; auto.
Qed.
Lemma frep_tag h p v : frep h p v -> is_box v = false -> match p with None => True | Some l => c_dt (h l) <> TObject /\ c_dt (h l) <> TArray end.
Proof.
  intros R B. destruct (is_str v) eqn:A.
  - destruct (frep_str _ _ _ R A) as (l & -> & [[D _]|[D _]]); rewrite D; split; discriminate.
  - pose proof (frep_leaf _ _ _ R A B) as X. destruct p as [l|]; auto. destruct X as (_ & D & _). rewrite D.
    destruct v; cbn in *; try discriminate; split; discriminate.
Qed.

Lemma rep_settles h h' v : settles h h' -> forall p, rep h p v -> frep h' p v.
Proof.
  intros L. induction v using value_ind'; intros p R.
  2:{ apply rep_obj_inv in R as (l & -> & D & -> & F).
    assert (X : exists kvs', Forall2 (fun a b => fst a = fst b /\ rep h' (snd a) (snd b)) (c_kvs (h l)) kvs' /\
        Forall2 (fun a b => fst a = fst b /\ nf (snd a) = nf (snd b)) kvs' kvs).
    { clear D. induction F as [|a b la lb [K R] F IH]; [exists []; split; constructor|].
      inversion H as [|? ? HA HB]; subst. destruct (IH HB) as (k' & I1 & I2). destruct (HA _ R) as (w & R1 & N1).
      exists ((fst b, w) :: k'). split; constructor; auto. }
    destruct X as (kvs' & F1 & F2). destruct (L l) as [Q|[Q [[K _]|[_ C]]]]; [| |congruence].
    - exists (VObject (c_unesc (h l)) kvs'). split; [apply rep_obj_intro; rewrite Q; auto|].
      cbn [nf]. f_equal. clear - F2. induction F2 as [|a b la lb [K N] F2 IH]; cbn; [auto|]. rewrite K, N, IH. reflexivity.
    - unfold settled_cell in Q. rewrite D in Q.
      exists (VObject true (map (fun kv => (ukey E (c_unesc (h l)) (fst kv), snd kv)) kvs')). split.
      + apply rep_obj_intro; rewrite Q; auto. cbn [unescape_cell w_obj c_kvs]. rewrite ukeys. clear - F1.
        induction F1 as [|a b la lb [K R] F1 IH]; cbn [map]; constructor; auto. cbn [fst snd]. rewrite K. auto.
      + cbn [nf]. unfold uf, kf. rewrite K. f_equal. rewrite map_map. cbn [fst snd].
        clear - F2. induction F2 as [|a b la lb [K' N] F2 IH]; cbn [map]; [auto|]. rewrite K', N, IH. reflexivity. }
  2:{ apply rep_arr_inv in R as (l0 & -> & D & F).
    assert (X : exists vs', Forall2 (rep h') (c_arr (h l0)) vs' /\ map nf vs' = map nf l).
    { clear D. induction F as [|a b la lb R F IH]; [exists []; split; constructor|].
      inversion H as [|? ? HA HB]; subst. destruct (IH HB) as (k' & I1 & I2). destruct (HA _ R) as (w & R1 & N1).
      exists (w :: k'). split; [constructor; auto|]. cbn. congruence. }
    destruct X as (vs' & F1 & F2). pose proof (settles_arr h h' l0 L D) as Q.
    exists (VArray vs'). split; [|cbn; congruence]. constructor; congruence. }
  3:{ inversion R as [| | | |l H0| | | | | | | | | | |]; subst. destruct (L l) as [Q|[Q [[_ C]|[K _]]]]; [|congruence|].
      - exists (VRawString (c_str (h' l))). split; [constructor; congruence|]. rewrite Q. reflexivity.
      - unfold settled_cell in Q. rewrite H0 in Q. unfold StringOf in Q. rewrite H0 in Q. cbn in Q.
        exists (VString (c_str (h' l))). split; [constructor; rewrite Q; reflexivity|]. cbn [nf]. rewrite K, Q. reflexivity. }
  all: inversion R as [| | | l Q| l Q| l Q| l Q| l Q| l Q| l Q| l Q| l Q| l Q| l Q| l Q| l Q]; subst.
  all: eexists; split; [|reflexivity].
  1: constructor.
  all: assert (HL : h' l = h l) by (destruct (L l) as [Q'|[_ [[_ Q']|[_ Q']]]]; [exact Q'|congruence|congruence]);
    try rewrite <- HL; constructor; congruence.
Qed.
Lemma frep_settles h h' p v : settles h h' -> frep h p v -> frep h' p v.
Proof. intros L (v' & R & Q). destruct (rep_settles h h' v' L p R) as (w & R1 & Q1). exists w. split; congruence. Qed.

(** Positions inside a loop. *)
Definition at_kvs (h : nat -> cell) (l i : nat) (u : bool) (kvs : list (bytes * value)) : Prop :=
  c_dt (h l) = TObject /\ uf (c_unesc (h l)) = uf u /\
  Forall2 (fun a b => kf (c_unesc (h l)) (fst a) = kf u (fst b) /\ frep h (snd a) (snd b)) (skipn i (c_kvs (h l))) kvs.
Lemma skipn_map {A B} (f : A -> B) i l : skipn i (map f l) = map f (skipn i l).
Proof. revert l; induction i as [|i IH]; intros [|x l]; cbn; auto. Qed.
Lemma at_kvs_settles h h' l i u kvs : settles h h' -> at_kvs h l i u kvs -> at_kvs h' l i u kvs.
Proof.
  intros L (D & U & F). destruct (L l) as [Q|[Q [[K _]|[_ C]]]]; [| |congruence].
  - unfold at_kvs. rewrite Q. split; [auto|split; [auto|]]. eapply F2_impl; [|exact F]. intros a b [K R]. split; [exact K|].
    eapply frep_settles; eauto.
  - unfold settled_cell in Q. rewrite D in Q. unfold at_kvs. rewrite Q. cbn [unescape_cell w_obj c_dt c_unesc c_kvs].
    split; [auto|split; [unfold uf; rewrite K; auto|]]. rewrite ukeys, skipn_map.
    clear - F K L. induction F as [|a b la lb [KK R] F IH]; cbn [map]; constructor; auto. cbn [fst snd].
    split; [|eapply frep_settles; eauto]. rewrite <- KK. unfold kf, ukey. rewrite K. reflexivity.
Qed.
Lemma at_kvs_next h l i u x kvs : at_kvs h l i u (x :: kvs) ->
  exists k p, nth_error (c_kvs (h l)) i = Some (k, p) /\ kf (c_unesc (h l)) k = kf u (fst x) /\ frep h p (snd x) /\ at_kvs h l (S i) u kvs.
Proof.
  intros (D & U & F). inversion F as [|a b la lb [K R] F' Q1 Q2]; subst. symmetry in Q1.
  apply skipn_hd in Q1 as [N Q]. exists (fst a), (snd a). rewrite N. destruct a; cbn [fst snd] in *.
  split; [auto|split; [auto|split; [auto|]]]. unfold at_kvs. rewrite Q. auto.
Qed.
Lemma at_kvs_end h l i u : at_kvs h l i u [] -> nth_error (c_kvs (h l)) i = None.
Proof. intros (_ & _ & F). inversion F as [Q|]. apply skipn_nil_nth. auto. Qed.
Definition at_vs (h : nat -> cell) (l i : nat) (vs : list value) : Prop :=
  c_dt (h l) = TArray /\ Forall2 (frep h) (skipn i (c_arr (h l))) vs.
Lemma at_vs_settles h h' l i vs : settles h h' -> at_vs h l i vs -> at_vs h' l i vs.
Proof.
  intros L (D & F). unfold at_vs. rewrite (settles_arr h h' l L D). split; [auto|].
  eapply F2_impl; [|exact F]. intros a b R. eapply frep_settles; eauto.
Qed.
Lemma at_vs_next h l i x vs : at_vs h l i (x :: vs) ->
  exists p, nth_error (c_arr (h l)) i = Some p /\ frep h p x /\ at_vs h l (S i) vs.
Proof.
  intros (D & F). inversion F as [|a b la lb R F' Q1 Q2]; subst. symmetry in Q1.
  apply skipn_hd in Q1 as [N Q]. exists a. split; [auto|split; [auto|]]. unfold at_vs. rewrite Q. auto.
Qed.
Lemma at_vs_end h l i : at_vs h l i [] -> nth_error (c_arr (h l)) i = None.
Proof. intros (_ & F). inversion F as [Q|]. apply skipn_nil_nth. auto. Qed.

(** Everything but the cells is left alone. *)
Definition same_rest (s s' : st) : Prop := exists h, s' = mkSt h (nx s) (cs s) (nc s) (pl s).
Definition calm (s s' : st) : Prop := settles (hp s) (hp s') /\ same_rest s s'.
Lemma calm_refl s : calm s s.
Proof. split; [apply settles_refl|]. exists (hp s). destruct s; reflexivity. Qed.
Lemma calm_trans a b c : calm a b -> calm b c -> calm a c.
Proof.
  intros [A1 [h1 ->]] [A2 [h2 ->]]. split; [eapply settles_trans; eauto|]. exists h2. reflexivity.
Qed.
Lemma calm_obj s l : ks = true -> c_dt (hp s l) = TObject -> calm s (set_cell s l (unescape_cell E (hp s l))).
Proof. intros K D. split; [apply settles_obj; auto|]. eexists. reflexivity. Qed.
Lemma calm_str s l : rs = true -> c_dt (hp s l) = TRaw -> calm s (set_cell s l (snd (StringOf E (hp s l)))).
Proof. intros K D. split; [apply settles_str; auto|]. eexists. reflexivity. Qed.
(** The outcome on memory is the outcome on the tree. *)
Definition writes (r : res (bytes * st)) (s : st) (t : res bytes) : Prop :=
  match t with
  | Ok d => exists s', r = Ok (d, s') /\ calm s s'
  | Err e => r = Err e
  | Panic => r = Panic
  | OutOfFuel => False
  end.
Lemma writes_after r s s0 t : calm s s0 -> writes r s0 t -> writes r s t.
Proof. intros C W. destruct t; cbn in *; auto. destruct W as (s' & Q & C'). exists s'. split; [auto|]. eapply calm_trans; eauto. Qed.
Lemma writes_bind r s t (f : bytes -> st -> res (bytes * st)) (g : bytes -> res bytes) : writes r s t ->
  (forall d s1, t = Ok d -> calm s s1 -> writes (f d s1) s1 (g d)) ->
  writes (do (d, s1) <- r; f d s1) s (do d <- t; g d).
Proof.
  intros W H. destruct t; cbn [writes] in W; [|rewrite W; reflexivity|rewrite W; reflexivity|contradiction].
  destruct W as (s1 & -> & C). cbn [bind]. eapply writes_after; [exact C|]. apply H; auto.
Qed.
Lemma calm_noop s l : calm s (set_cell s l (hp s l)).
Proof.
  split; [|eexists; reflexivity]. intros x. left. cbn [set_cell hp].
  destruct (Nat.eq_dec x l) as [->|Q]; [apply upd_same|apply upd_other; auto].
Qed.
Lemma writes_str x y (P : bytes -> bytes) s s' : x = y -> calm s s' -> writes (Ok (P x, s')) s (Ok (P y)).
Proof. intros -> C. exists s'. auto. Qed.
Lemma writes_here d s : writes (Ok (d, s)) s (Ok d).
Proof. exists s. split; [auto|apply calm_refl]. Qed.
Lemma writes_map r s t (g : bytes -> bytes) : writes r s t ->
  writes (do (d, s1) <- r; Ok (g d, s1)) s (do d <- t; Ok (g d)).
Proof. intros W. apply (writes_bind r s t (fun d s1 => Ok (g d, s1))); [exact W|]. intros. apply writes_here. Qed.
End Settle.

(** ** MsgPack *)
Section MsgPack.
Variable E : env.
Lemma h_mp_S f s p dst : h_Value2MsgPack E (S f) s p dst =
      match p with
      | None => Ok (dst ++ [CodeNil])
      | Some l =>
          match c_dt (hp s l) with
          | TObject => mp_kvs E f s (c_kvs (hp s l)) (writeMapCode (zlen (c_kvs (hp s l))) dst)
          | TArray => mp_arr E f s (c_arr (hp s l)) (writeArrayCode (zlen (c_arr (hp s l))) dst)
          | _ => Ok (Value2MsgPack E (leaf (hp s l)) dst)
          end
      end.
Proof. reflexivity. Qed.
Lemma mp_kvs_S f s l dst : mp_kvs E (S f) s l dst =
      match l with
      | [] => Ok dst
      | (k, x) :: r => do d <- h_Value2MsgPack E f s x (writeStrCode (zlen k) dst ++ k); mp_kvs E f s r d
      end.
Proof. reflexivity. Qed.
Lemma mp_arr_S f s l dst : mp_arr E (S f) s l dst =
      match l with
      | [] => Ok dst
      | x :: r => do d <- h_Value2MsgPack E f s x dst; mp_arr E f s r d
      end.
Proof. reflexivity. Qed.
Definition mp_shows (v : value) : Prop := exists n0, forall fuel s p dst, (n0 <= fuel)%nat -> rep (hp s) p v ->
  h_Value2MsgPack E fuel s p dst = Ok (Value2MsgPack E v dst).
Theorem mp_correct v : mp_shows v.
Proof.
  induction v using value_ind'.
  2:{ assert (X : exists n0, forall fuel s l dst, (n0 <= fuel)%nat ->
        Forall2 (fun a b => fst a = fst b /\ rep (hp s) (snd a) (snd b)) l kvs ->
        mp_kvs E fuel s l dst = Ok (fold_left (fun dst kv => Value2MsgPack E (snd kv) (writeStrCode (zlen (fst kv)) dst ++ fst kv)) kvs dst)).
      { induction H as [|kv kvs (n1 & H1) HF (n2 & IH)].
        - exists 1%nat. intros [|f] s l dst Hf F; [lia|]. inversion F; subst. reflexivity.
        - exists (S (n1 + n2)). intros [|f] s l dst Hf F; [lia|]. inversion F as [|[k x] ? r ? [K R] F']; subst. cbn [fst snd] in K, R. subst k.
          rewrite mp_kvs_S. rewrite (H1 f s x) by (auto; lia). cbn [bind fold_left]. apply IH; auto; lia. }
      destruct X as (n & X). exists (S n). intros [|f] s p dst Hf R; [lia|].
      apply rep_obj_inv in R as (l & -> & D & -> & F). rewrite h_mp_S, D. rewrite (X f s _ _ ltac:(lia) F).
      cbn [Value2MsgPack]. unfold zlen. rewrite (F2_length _ _ _ F). reflexivity. }
  2:{ assert (X : exists n0, forall fuel s l0 dst, (n0 <= fuel)%nat ->
        Forall2 (rep (hp s)) l0 l ->
        mp_arr E fuel s l0 dst = Ok (fold_left (fun dst x => Value2MsgPack E x dst) l dst)).
      { induction H as [|kv kvs (n1 & H1) HF (n2 & IH)].
        - exists 1%nat. intros [|f] s l dst Hf F; [lia|]. inversion F; subst. reflexivity.
        - exists (S (n1 + n2)). intros [|f] s l dst Hf F; [lia|]. inversion F as [|x ? r ? R F']; subst.
          rewrite mp_arr_S. rewrite (H1 f s x) by (auto; lia). cbn [bind fold_left]. apply IH; auto; lia. }
      destruct X as (n & X). exists (S n). intros [|f] s p dst Hf R; [lia|].
      apply rep_arr_inv in R as (l0 & -> & D & F). rewrite h_mp_S, D. rewrite (X f s _ _ ltac:(lia) F).
      cbn [Value2MsgPack]. unfold zlen. rewrite (F2_length _ _ _ F). reflexivity. }
  all: exists 1%nat; intros [|f] st0 p dst Hf R; [lia|]; rewrite h_mp_S; inversion R as [| | | l Q| l Q| l Q| l Q| l Q| l Q| l Q| l Q| l Q| l Q| l Q| l Q| l Q]; subst;
    try rewrite Q; unfold leaf; try rewrite Q; reflexivity.
Qed.
End MsgPack.

(** ** BSON *)
Section Bson.
Variable E : env.
Notation frep := (frep E true true).
Notation writes := (writes E true true).
Notation calm := (calm E true true).
Lemma h_bson_S f s l dst : h_ToBson E (S f) s l dst =
      match c_dt (hp s l) with
      | TObject =>
          do (d, s1) <- bson_kvs E f (set_cell s l (unescape_cell E (hp s l))) l O (dst ++ [0; 0; 0; 0]);
          Ok (put32_at (d ++ [0]) (zlen dst) (zlen (d ++ [0]) - zlen dst), s1)
      | TArray =>
          do (d, s1) <- bson_arr E f s l O (dst ++ [0; 0; 0; 0]);
          Ok (put32_at (d ++ [0]) (zlen dst) (zlen (d ++ [0]) - zlen dst), s1)
      | TString | TRaw =>
          let (str, c) := StringOf E (hp s l) in
          Ok (putLittI32 (zlen str + 1) dst ++ str ++ [0], set_cell s l c)
      | _ => do d <- writeSimpleBsonValue E (leaf (hp s l)) dst; Ok (d, s)
      end.
Proof. reflexivity. Qed.
Lemma bson_kvs_S f s l i dst : bson_kvs E (S f) s l i dst =
      match nth_error (c_kvs (hp s l)) i with
      | None => Ok (dst, s)
      | Some (k, x) =>
          do (d, s1) <- match x with
                        | None => Ok (writeBsonElementType (leaf_at s x) dst ++ k ++ [0], s)
                        | Some m => h_ToBson E f s m (writeBsonElementType (leaf_at s x) dst ++ k ++ [0])
                        end;
          bson_kvs E f s1 l (S i) d
      end.
Proof. reflexivity. Qed.
Lemma bson_arr_S f s l i dst : bson_arr E (S f) s l i dst =
      match nth_error (c_arr (hp s l)) i with
      | None => Ok (dst, s)
      | Some x =>
          do (d, s1) <- match x with
                        | None => Ok (writeBsonElementType (leaf_at s x) dst ++ fmt_int (Z.of_nat i) ++ [0], s)
                        | Some m => h_ToBson E f s m (writeBsonElementType (leaf_at s x) dst ++ fmt_int (Z.of_nat i) ++ [0])
                        end;
          bson_arr E f s1 l (S i) d
      end.
Proof. reflexivity. Qed.
Definition tb_kvs (u : bool) := fix go (kvs : list (bytes * value)) (dst : bytes) : res bytes :=
  match kvs with
  | [] => Ok dst
  | (k, x) :: r =>
      let k := if u then k else x_unescape E k in
      let dst := writeBsonElementType x dst ++ k ++ [0] in
      do dst <- match x with VNilP => Ok dst | _ => ToBson E x dst end;
      go r dst
  end.
Lemma tb_kvs_cons u k x r dst : tb_kvs u ((k, x) :: r) dst =
  do dst <- match x with
            | VNilP => Ok (writeBsonElementType x dst ++ (if u then k else x_unescape E k) ++ [0])
            | _ => ToBson E x (writeBsonElementType x dst ++ (if u then k else x_unescape E k) ++ [0])
            end;
  tb_kvs u r dst.
Proof. reflexivity. Qed.
Fixpoint tb_arr (i : Z) (l : list value) (dst : bytes) : res bytes :=
  match l with
  | [] => Ok dst
  | x :: r =>
      let dst := writeBsonElementType x dst ++ fmt_int i ++ [0] in
      do dst <- match x with VNilP => Ok dst | _ => ToBson E x dst end;
      tb_arr (i + 1) r dst
  end.
Lemma ToBson_obj u kvs dst : ToBson E (VObject u kvs) dst =
  do d <- tb_kvs u kvs (dst ++ [0; 0; 0; 0]); Ok (put32_at (d ++ [0]) (zlen dst) (zlen (d ++ [0]) - zlen dst)).
Proof. reflexivity. Qed.
Lemma ToBson_arr l dst : ToBson E (VArray l) dst =
  do d <- tb_arr 0 l (dst ++ [0; 0; 0; 0]); Ok (put32_at (d ++ [0]) (zlen dst) (zlen (d ++ [0]) - zlen dst)).
Proof. reflexivity. Qed.
Lemma elem_type s p v dst : frep (hp s) p v -> writeBsonElementType (leaf_at s p) dst = writeBsonElementType v dst.
Proof.
  intros R. destruct (is_box v) eqn:B.
  - destruct v; try discriminate.
    + apply frep_obj_inv in R as (l & -> & D & _). cbn [leaf_at]. unfold leaf. rewrite D. reflexivity.
    + apply frep_arr_inv in R as (l0 & -> & D & _). cbn [leaf_at]. unfold leaf. rewrite D. reflexivity.
  - destruct (is_str v) eqn:A.
    + apply frep_str in R as (l & -> & [[D _]|[D _]]); [| |exact A]; cbn [leaf_at]; unfold leaf; rewrite D; destruct v; try discriminate; reflexivity.
    + pose proof (frep_leaf _ _ _ _ _ _ R A B) as X. destruct p as [l|]; [destruct X as (X & _)|]; cbn [leaf_at]; congruence.
Qed.
Definition bson_shows (v : value) : Prop := v <> VNilP -> exists n0, forall fuel s l dst, (n0 <= fuel)%nat -> frep (hp s) (Some l) v ->
  writes (h_ToBson E fuel s l dst) s (ToBson E v dst).
Lemma bson_kvs_ok u kvs : Forall (fun kv => bson_shows (snd kv)) kvs -> exists n0, forall fuel s l i dst, (n0 <= fuel)%nat ->
  at_kvs E true true (hp s) l i u kvs -> c_unesc (hp s l) = true ->
  writes (bson_kvs E fuel s l i dst) s (tb_kvs u kvs dst).
Proof.
  induction 1 as [|[k v] kvs H1 HF (n2 & IH)].
  - exists 1%nat. intros [|f] s l i dst Hf A U; [lia|]. rewrite bson_kvs_S, (at_kvs_end _ _ _ _ _ _ _ A).
    exists s. split; [auto|apply calm_refl].
  - cbn [snd] in H1.
    assert (X : exists n1, forall fuel s p dst, (n1 <= fuel)%nat -> frep (hp s) p v ->
      writes (match p with None => Ok (dst, s) | Some m => h_ToBson E fuel s m dst end) s
        (match v with VNilP => Ok dst | _ => ToBson E v dst end)).
    { destruct v; try (destruct (H1 ltac:(discriminate)) as (n1 & H2); exists n1; intros f s0 p d Hf R;
        destruct p as [m|]; [apply H2; auto|destruct R as (v' & R & Q); inversion R; subst; discriminate]).
      exists O. intros f s p d _ R. pose proof (frep_leaf _ _ _ _ _ _ R eq_refl eq_refl) as Q.
      destruct p as [m|]; [destruct Q as (_ & _ & Q); congruence|]. exists s. split; [auto|apply calm_refl]. }
    destruct X as (n1 & X). exists (S (n1 + n2)). intros [|f] s l i dst Hf A U; [lia|].
    destruct (at_kvs_next _ _ _ _ _ _ _ _ _ A) as (k' & p & N & K & R & A'). cbn [fst snd] in K, R.
    rewrite bson_kvs_S, N. rewrite U in K. unfold kf in K. subst k'.
    rewrite (elem_type _ _ _ _ R). rewrite tb_kvs_cons.
    apply (writes_bind E true true _ s _ (fun d s1 => bson_kvs E f s1 l (S i) d)).
    { specialize (X f s p (writeBsonElementType v dst ++ (if u then k else x_unescape E k) ++ [0]) ltac:(lia) R). exact X. }
    intros d s1 _ C. apply IH; [lia|eapply at_kvs_settles; [apply C|exact A']|].
    destruct C as [C _]. destruct (C l) as [->|[-> [[_ D]|[_ D]]]]; [exact U| |]; unfold settled_cell; rewrite D; [reflexivity|].
    destruct A as (D' & _). congruence.
Qed.
Lemma bson_arr_ok vs : Forall bson_shows vs -> exists n0, forall fuel s l i dst, (n0 <= fuel)%nat ->
  at_vs E true true (hp s) l i vs ->
  writes (bson_arr E fuel s l i dst) s (tb_arr (Z.of_nat i) vs dst).
Proof.
  induction 1 as [|v kvs H1 HF (n2 & IH)].
  - exists 1%nat. intros [|f] s l i dst Hf A; [lia|]. rewrite bson_arr_S, (at_vs_end _ _ _ _ _ _ A).
    exists s. split; [auto|apply calm_refl].
  - assert (X : exists n1, forall fuel s p dst, (n1 <= fuel)%nat -> frep (hp s) p v ->
      writes (match p with None => Ok (dst, s) | Some m => h_ToBson E fuel s m dst end) s
        (match v with VNilP => Ok dst | _ => ToBson E v dst end)).
    { destruct v; try (destruct (H1 ltac:(discriminate)) as (n1 & H2); exists n1; intros f s0 p d Hf R;
        destruct p as [m|]; [apply H2; auto|destruct R as (v' & R & Q); inversion R; subst; discriminate]).
      exists O. intros f s p d _ R. pose proof (frep_leaf _ _ _ _ _ _ R eq_refl eq_refl) as Q.
      destruct p as [m|]; [destruct Q as (_ & _ & Q); congruence|]. exists s. split; [auto|apply calm_refl]. }
    destruct X as (n1 & X). exists (S (n1 + n2)). intros [|f] s l i dst Hf A; [lia|].
    destruct (at_vs_next _ _ _ _ _ _ _ _ A) as (p & N & R & A').
    rewrite bson_arr_S, N. rewrite (elem_type _ _ _ _ R). cbn [tb_arr]. cbv zeta.
    apply (writes_bind E true true _ s _ (fun d s1 => bson_arr E f s1 l (S i) d)).
    { specialize (X f s p (writeBsonElementType v dst ++ fmt_int (Z.of_nat i) ++ [0]) ltac:(lia) R). exact X. }
    intros d s1 _ C. replace (Z.of_nat i + 1) with (Z.of_nat (S i)) by lia. apply IH; [lia|eapply at_vs_settles; [apply C|exact A']].
Qed.
Theorem bson_correct v : bson_shows v.
Proof.
  induction v using value_ind'; intros NN.
  2:{ destruct (bson_kvs_ok u kvs H) as (n & X). exists (S n). intros [|f] s l dst Hf R; [lia|].
      apply frep_obj_inv in R as (l' & Q & D & U & F). injection Q as <-.
      rewrite h_bson_S, D, ToBson_obj.
      apply (writes_map E true true _ s _ (fun d => put32_at (d ++ [0]) (zlen dst) (zlen (d ++ [0]) - zlen dst))).
      assert (A : at_kvs E true true (hp s) l 0 u kvs) by (split; [auto|split; [auto|exact F]]).
      pose proof (calm_obj E true true s l eq_refl D) as C. eapply writes_after; [exact C|].
      apply X; [lia|eapply at_kvs_settles; [apply C|exact A]|]. cbn [set_cell hp]. rewrite upd_same. reflexivity. }
  2:{ destruct (bson_arr_ok l H) as (n & X). exists (S n). intros [|f] s l' dst Hf R; [lia|].
      apply frep_arr_inv in R as (l0 & Q & D & F). injection Q as <-.
      rewrite h_bson_S, D, ToBson_arr.
      apply (writes_map E true true _ s _ (fun d => put32_at (d ++ [0]) (zlen dst) (zlen (d ++ [0]) - zlen dst))). apply (X f s l' O); [lia|]. split; auto. }
  2,3: exists 1%nat; intros [|f] s0 l dst Hf R; [lia|]; apply frep_str in R as (l' & Q & [[D R]|[D R]]); [| |reflexivity]; injection Q as <-;
    rewrite h_bson_S, D; cbn [nf] in R; injection R as R; cbn [ToBson writeSimpleBsonValue].
  3,5: unfold StringOf; rewrite D;
    apply (writes_str E true true _ _ (fun x => putLittI32 (zlen x + 1) dst ++ x ++ [0])); [exact R|];
    pose proof (calm_str E true true s0 l eq_refl D) as C; unfold StringOf in C; rewrite D in C; exact C.
  2,3: unfold StringOf; rewrite D;
    apply (writes_str E true true _ _ (fun x => putLittI32 (zlen x + 1) dst ++ x ++ [0])); [exact R|apply calm_noop].
  1: congruence.
  all: exists 1%nat; intros [|f] s0 l dst Hf R; [lia|]; pose proof (frep_leaf _ _ _ _ _ _ R eq_refl eq_refl) as (Q & D & _);
    cbn [tag] in D; rewrite h_bson_S, D, Q; unfold ToBson.
  all: match goal with |- context [writeSimpleBsonValue E ?v ?dst0] => 
         assert (X : writeSimpleBsonValue E v dst0 <> OutOfFuel) by (cbn [writeSimpleBsonValue]; unfold take; repeat match goal with |- context [if ?b then _ else _] => destruct b end; cbn [bind]; discriminate);
         destruct (writeSimpleBsonValue E v dst0); [apply writes_here|reflexivity|reflexivity|congruence] end.
Qed.
Theorem h_bson_correct v : exists n0, forall fuel s p dst, (n0 <= fuel)%nat -> frep (hp s) p v ->
  writes (h_Value2Bson E fuel s p dst) s (Value2Bson E v dst).
Proof.
  destruct (is_box v) eqn:B.
  - destruct (bson_correct v) as (n & H); [destruct v; discriminate|]. exists n. intros fuel s p dst Hf R.
    destruct v; try discriminate.
    + pose proof R as R'. apply frep_obj_inv in R as (l & -> & D & _). unfold h_Value2Bson. rewrite D. apply H; auto.
    + pose proof R as R'. apply frep_arr_inv in R as (l0 & -> & D & _). unfold h_Value2Bson. rewrite D. apply H; auto.
  - exists O. intros fuel s p dst _ R. pose proof (frep_tag _ _ _ _ _ _ R B) as T.
    destruct p as [l|].
    + assert (v <> VNilP). { intros ->. pose proof (frep_leaf _ _ _ _ _ _ R eq_refl eq_refl) as (_ & _ & X). congruence. }
      unfold h_Value2Bson. destruct T as [T1 T2]. destruct v; try discriminate; try congruence; destruct (c_dt (hp s l)); try congruence; reflexivity.
    + destruct R as (v' & R & Q). inversion R; subst. destruct v; try discriminate. reflexivity.
Qed.
End Bson.

(** ** JSON *)
Section Json.
Variable E : env.
Variable style : escape_style.
Variable escDate fmt : bool.
Definition unesc_style : bool := match style with JSE_NoEscape => true | _ => false end.
Notation ks := unesc_style.
Notation frep := (frep E ks false).
Notation writes := (writes E ks false).
Notation calm := (calm E ks false).
Lemma h_json_S f s level p dst : h_json E style escDate fmt (S f) s level p dst =
      match p with
      | None => Panic
      | Some l =>
          match c_dt (hp s l) with
          | TObject =>
              do (d, s1) <- json_kvs E style escDate fmt f s level l O (dst ++ [123] ++ j_open fmt);
              Ok (d ++ j_close fmt level ++ [125], s1)
          | TArray =>
              do (d, s1) <- json_arr E style escDate fmt f s level l O (dst ++ [91] ++ j_open fmt);
              Ok (d ++ j_close fmt level ++ [93], s1)
          | _ =>
              do d <- (if fmt then formatValue E style escDate level (leaf (hp s l)) dst
                       else Value2Json E style escDate (leaf (hp s l)) dst);
              Ok (d, s)
          end
      end.
Proof. reflexivity. Qed.
Definition touch (s : st) (l : nat) : st :=
  match style with
  | JSE_NoEscape => if c_unesc (hp s l) then s else set_cell s l (unescape_cell E (hp s l))
  | _ => s
  end.
Definition key_text (c : cell) (k : bytes) : bytes :=
  match style with
  | JSE_NoEscape => k
  | _ => if c_unesc c then x_escape E (escape_all style) k else k
  end.
Lemma json_kvs_S f s level l i dst : json_kvs E style escDate fmt (S f) s level l i dst =
      match nth_error (c_kvs (hp s l)) i with
      | None => Ok (dst, s)
      | Some _ =>
          match nth_error (c_kvs (hp (touch s l) l)) i with
          | None => Panic
          | Some (k, x) =>
              do (d, s1) <- h_json E style escDate fmt f (touch s l) (S level) x
                   (dst ++ j_sep fmt i ++ j_pre fmt level ++ [34] ++ key_text (hp (touch s l) l) k ++ [34; 58]);
              json_kvs E style escDate fmt f s1 level l (S i) d
          end
      end.
Proof. reflexivity. Qed.
Lemma json_arr_S f s level l i dst : json_arr E style escDate fmt (S f) s level l i dst =
      match nth_error (c_arr (hp s l)) i with
      | None => Ok (dst, s)
      | Some x =>
          do (d, s1) <- match x with
                        | None => Ok ((dst ++ j_sep fmt i ++ j_pre fmt level) ++ bs "null", s)
                        | Some _ => h_json E style escDate fmt f s (S level) x (dst ++ j_sep fmt i ++ j_pre fmt level)
                        end;
          json_arr E style escDate fmt f s1 level l (S i) d
      end.
Proof. reflexivity. Qed.
(** The tree encoders, both at once. *)
Definition jt (level : nat) (v : value) (dst : bytes) : res bytes :=
  if fmt then formatValue E style escDate level v dst else Value2Json E style escDate v dst.
Fixpoint jt_kvs (level : nat) (u : bool) (i : nat) (kvs : list (bytes * value)) (dst : bytes) : res bytes :=
  match kvs with
  | [] => Ok dst
  | (k, x) :: r =>
      do d <- jt (S level) x (dst ++ j_sep fmt i ++ j_pre fmt level ++ [34] ++ json_key E style u k ++ [34; 58]);
      jt_kvs level u (S i) r d
  end.
Fixpoint jt_arr (level i : nat) (l : list value) (dst : bytes) : res bytes :=
  match l with
  | [] => Ok dst
  | x :: r =>
      do d <- match x with
              | VNilP => Ok ((dst ++ j_sep fmt i ++ j_pre fmt level) ++ bs "null")
              | _ => jt (S level) x (dst ++ j_sep fmt i ++ j_pre fmt level)
              end;
      jt_arr level (S i) r d
  end.
Lemma bind_ext {A B} (r : res A) (f g : A -> res B) : (forall x, f x = g x) -> bind r f = bind r g.
Proof. intros H. destruct r; cbn; auto. Qed.
Lemma jt_obj level u kvs dst : jt level (VObject u kvs) dst =
  do d <- jt_kvs level u 0 kvs (dst ++ [123] ++ j_open fmt); Ok (d ++ j_close fmt level ++ [125]).
Proof.
  unfold jt, jt_kvs, j_open, j_close, j_pre, j_sep. destruct fmt eqn:FM; cbn [formatValue Value2Json].
  - replace (dst ++ [123] ++ [13; 10]) with (dst ++ [123; 13; 10]) by reflexivity.
    match goal with |- bind ?a _ = bind ?b _ => assert (X : a = b) end.
    2:{ rewrite X. apply bind_ext. intros d. rewrite <- !app_assoc. reflexivity. }
    generalize (dst ++ [123; 13; 10]). assert (Z : true = true) by auto. revert Z.
    assert (G : forall first i, first = match i with O => true | _ => false end -> forall d,
      (fix go (first : bool) (l : list (bytes * value)) (dst : bytes) : res bytes :=
                 match l with
                 | [] => Ok dst
                 | (k, x) :: r =>
                     let dst := if first then dst else dst ++ [44; 13; 10] in
                     let dst := dst ++ indent (S level) ++ [34] in
                     let dst := dst ++ json_key E style u k ++ [34; 58] in
                     do dst <- formatValue E style escDate (S level) x dst;
                     go false r dst
                 end) first kvs d = jt_kvs level u i kvs d).
    2:{ intros _ b. rewrite (G true O eq_refl). unfold jt_kvs, jt, j_sep, j_pre. rewrite FM. reflexivity. }
    induction kvs as [|[k x] r IH]; intros first i -> d; [reflexivity|]. cbn [jt_kvs]. cbv zeta.
    unfold jt, j_sep, j_pre. rewrite FM.
    match goal with |- bind (formatValue _ _ _ _ _ ?a) _ = bind (formatValue _ _ _ _ _ ?b) _ => replace a with b end.
    2:{ destruct i; cbn [app]; rewrite <- ?app_assoc; reflexivity. }
    apply bind_ext. intros e. apply (IH false (S i) eq_refl).
  - replace (dst ++ [123] ++ []) with (dst ++ [123]) by (rewrite app_nil_r; reflexivity).
    match goal with |- bind ?a _ = bind ?b _ => assert (X : a = b) end.
    2:{ rewrite X. apply bind_ext. intros d. reflexivity. }
    generalize (dst ++ [123]).
    assert (G : forall first i, first = match i with O => true | _ => false end -> forall d,
      (fix go (first : bool) (l : list (bytes * value)) (dst : bytes) : res bytes :=
                 match l with
                 | [] => Ok dst
                 | (k, x) :: r =>
                     let dst := dst ++ (if first then [34] else [44; 34]) in
                     let dst := dst ++ json_key E style u k ++ [34; 58] in
                     do dst <- Value2Json E style escDate x dst;
                     go false r dst
                 end) first kvs d = jt_kvs level u i kvs d).
    2:{ intros b. rewrite (G true O eq_refl). unfold jt_kvs, jt, j_sep, j_pre. rewrite FM. reflexivity. }
    induction kvs as [|[k x] r IH]; intros first i -> d; [reflexivity|]. cbn [jt_kvs]. cbv zeta.
    unfold jt, j_sep, j_pre. rewrite FM.
    match goal with |- bind (Value2Json _ _ _ _ ?a) _ = bind (Value2Json _ _ _ _ ?b) _ => replace a with b end.
    2:{ destruct i; cbn [app]; rewrite <- ?app_assoc; reflexivity. }
    apply bind_ext. intros e. apply (IH false (S i) eq_refl).
Qed.
Lemma jt_array level l dst : jt level (VArray l) dst =
  do d <- jt_arr level 0 l (dst ++ [91] ++ j_open fmt); Ok (d ++ j_close fmt level ++ [93]).
Proof.
  unfold jt, jt_arr, j_open, j_close, j_pre, j_sep. destruct fmt eqn:FM; cbn [formatValue Value2Json].
  - replace (dst ++ [91] ++ [13; 10]) with (dst ++ [91; 13; 10]) by reflexivity.
    match goal with |- bind ?a _ = bind ?b _ => assert (X : a = b) end.
    2:{ rewrite X. apply bind_ext. intros d. rewrite <- !app_assoc. reflexivity. }
    generalize (dst ++ [91; 13; 10]).
    assert (G : forall first i, first = match i with O => true | _ => false end -> forall d,
      (fix go (first : bool) (l : list value) (dst : bytes) : res bytes :=
                 match l with
                 | [] => Ok dst
                 | x :: r =>
                     let dst := if first then dst else dst ++ [44; 13; 10] in
                     let dst := dst ++ indent (S level) in
                     do dst <- match x with
                               | VNilP => Ok (dst ++ bs "null")
                               | _ => formatValue E style escDate (S level) x dst
                               end;
                     go false r dst
                 end) first l d = jt_arr level i l d).
    2:{ intros b. rewrite (G true O eq_refl). unfold jt_arr, jt, j_sep, j_pre. rewrite FM. reflexivity. }
    induction l as [|x r IH]; intros first i -> d; [reflexivity|]. cbn [jt_arr]. cbv zeta.
    unfold jt. rewrite FM.
    assert (Q : d ++ j_sep true i ++ j_pre true level =
      (if match i with O => true | _ => false end then d else d ++ [44; 13; 10]) ++ indent (S level))
      by (destruct i; cbn [app j_sep j_pre]; rewrite <- ?app_assoc; reflexivity).
    cbv iota. rewrite Q.
    apply bind_ext. intros e. apply (IH false (S i) eq_refl).
  - replace (dst ++ [91] ++ []) with (dst ++ [91]) by (rewrite app_nil_r; reflexivity).
    match goal with |- bind ?a _ = bind ?b _ => assert (X : a = b) end.
    2:{ rewrite X. apply bind_ext. intros d. reflexivity. }
    generalize (dst ++ [91]).
    assert (G : forall first i, first = match i with O => true | _ => false end -> forall d,
      (fix go (first : bool) (l : list value) (dst : bytes) : res bytes :=
                 match l with
                 | [] => Ok dst
                 | x :: r =>
                     let dst := if first then dst else dst ++ [44] in
                     do dst <- match x with
                               | VNilP => Ok (dst ++ bs "null")
                               | _ => Value2Json E style escDate x dst
                               end;
                     go false r dst
                 end) first l d = jt_arr level i l d).
    2:{ intros b. rewrite (G true O eq_refl). unfold jt_arr, jt, j_sep, j_pre. rewrite FM. reflexivity. }
    induction l as [|x r IH]; intros first i -> d; [reflexivity|]. cbn [jt_arr]. cbv zeta.
    unfold jt. rewrite FM.
    assert (Q : d ++ j_sep false i ++ j_pre false level =
      if match i with O => true | _ => false end then d else d ++ [44])
      by (destruct i; cbn [app j_sep j_pre]; rewrite ?app_nil_r; reflexivity).
    cbv iota. rewrite Q.
    apply bind_ext. intros e. apply (IH false (S i) eq_refl).
Qed.

Lemma touch_calm s l : c_dt (hp s l) = TObject -> calm s (touch s l).
Proof.
  intros D. unfold touch. destruct style eqn:Q; [|apply calm_refl|apply calm_refl].
  destruct (c_unesc (hp s l)); [apply calm_refl|]. apply calm_obj; auto. unfold unesc_style. rewrite Q. reflexivity.
Qed.
Lemma touch_key s l k u k0 : uf ks (c_unesc (hp (touch s l) l)) = uf ks u ->
  kf E ks (c_unesc (hp (touch s l) l)) k = kf E ks u k0 -> key_text (hp (touch s l) l) k = json_key E style u k0.
Proof.
  unfold touch, key_text, json_key, kf, uf, unesc_style. destruct style; [|intros -> ->; reflexivity|intros -> ->; reflexivity].
  destruct (c_unesc (hp s l)) eqn:U; [rewrite U; auto|]. cbn [set_cell hp]. rewrite upd_same. cbn [unescape_cell w_obj c_unesc]. auto.
Qed.
Definition json_shows (v : value) : Prop := exists n0, forall fuel s level p dst, (n0 <= fuel)%nat -> frep (hp s) p v ->
  writes (h_json E style escDate fmt fuel s level p dst) s (jt level v dst).
Lemma json_kvs_ok u kvs : Forall (fun kv => json_shows (snd kv)) kvs -> exists n0, forall fuel s level l i dst, (n0 <= fuel)%nat ->
  at_kvs E ks false (hp s) l i u kvs ->
  writes (json_kvs E style escDate fmt fuel s level l i dst) s (jt_kvs level u i kvs dst).
Proof.
  induction 1 as [|[k v] kvs (n1 & H1) HF (n2 & IH)].
  - exists 1%nat. intros [|f] s level l i dst Hf A; [lia|]. rewrite json_kvs_S, (at_kvs_end _ _ _ _ _ _ _ A). apply writes_here.
  - cbn [snd] in H1. exists (S (n1 + n2)). intros [|f] s level l i dst Hf A; [lia|].
    destruct (at_kvs_next _ _ _ _ _ _ _ _ _ A) as (k1 & p1 & N1 & _).
    pose proof (touch_calm s l (proj1 A)) as C.
    pose proof (at_kvs_settles _ _ _ _ _ _ _ _ _ (proj1 C) A) as A0.
    destruct (at_kvs_next _ _ _ _ _ _ _ _ _ A0) as (k' & p & N & K & R & A'). cbn [fst snd] in K, R.
    rewrite json_kvs_S, N1, N. cbn [jt_kvs]. rewrite (touch_key _ _ _ _ _ (proj1 (proj2 A0)) K).
    eapply writes_after; [exact C|].
    apply (writes_bind E ks false _ (touch s l) _ (fun d s1 => json_kvs E style escDate fmt f s1 level l (S i) d)); [apply H1; auto; lia|].
    intros d s1 _ C1. apply IH; [lia|eapply at_kvs_settles; [apply C1|exact A']].
Qed.
Lemma json_arr_ok vs : Forall json_shows vs -> exists n0, forall fuel s level l i dst, (n0 <= fuel)%nat ->
  at_vs E ks false (hp s) l i vs ->
  writes (json_arr E style escDate fmt fuel s level l i dst) s (jt_arr level i vs dst).
Proof.
  induction 1 as [|v kvs (n1 & H1) HF (n2 & IH)].
  - exists 1%nat. intros [|f] s level l i dst Hf A; [lia|]. rewrite json_arr_S, (at_vs_end _ _ _ _ _ _ A). apply writes_here.
  - exists (S (n1 + n2)). intros [|f] s level l i dst Hf A; [lia|].
    destruct (at_vs_next _ _ _ _ _ _ _ _ A) as (p & N & R & A').
    rewrite json_arr_S, N. cbn [jt_arr].
    apply (writes_bind E ks false _ s _ (fun d s1 => json_arr E style escDate fmt f s1 level l (S i) d)).
    + destruct p as [m|].
      * specialize (H1 f s (S level) (Some m) (dst ++ j_sep fmt i ++ j_pre fmt level) ltac:(lia) R).
        destruct v; try exact H1. pose proof (frep_leaf _ _ _ _ _ _ R eq_refl eq_refl) as (_ & _ & X). congruence.
      * destruct R as (v' & R & Q). inversion R; subst. destruct v; try discriminate. apply writes_here.
    + intros d s1 _ C1. apply IH; [lia|eapply at_vs_settles; [apply C1|exact A']].
Qed.
Lemma jt_leaf_fuel level v dst : is_box v = false -> jt level v dst <> OutOfFuel.
Proof.
  intros B. unfold jt. destruct fmt, v; cbn in *; try discriminate. unfold format_binary.
  repeat match goal with |- context [if ?b then _ else _] => destruct b end; cbn; discriminate.
Qed.
Theorem json_correct v : json_shows v.
Proof.
  induction v using value_ind'.
  2:{ destruct (json_kvs_ok u kvs H) as (n & X). exists (S n). intros [|f] s level p dst Hf R; [lia|].
      apply frep_obj_inv in R as (l & -> & D & U & F). rewrite h_json_S, D, jt_obj.
      apply (writes_map E ks false _ s _ (fun d => d ++ j_close fmt level ++ [125])). apply X; [lia|].
      split; [auto|split; [auto|exact F]]. }
  2:{ destruct (json_arr_ok l H) as (n & X). exists (S n). intros [|f] s level p dst Hf R; [lia|].
      apply frep_arr_inv in R as (l0 & -> & D & F). rewrite h_json_S, D, jt_array.
      apply (writes_map E ks false _ s _ (fun d => d ++ j_close fmt level ++ [93])). apply X; [lia|]. split; auto. }
  1:{ exists 1%nat. intros [|f] s level p dst Hf R; [lia|]. rewrite h_json_S. pose proof (frep_leaf _ _ _ _ _ _ R eq_refl eq_refl) as X.
      destruct p; [destruct X as (_ & _ & X); congruence|]. unfold jt. destruct fmt; reflexivity. }
  1,2: exists 1%nat; intros [|f] s0 level p dst Hf R; [lia|]; rewrite h_json_S; apply frep_str in R as (l & -> & [[D R]|[D R]]); [| |reflexivity];
    cbn [nf] in R; try discriminate; injection R as R; rewrite D; unfold leaf; rewrite D, R; unfold jt; destruct fmt; cbn; apply writes_here.
  all: exists 1%nat; intros [|f] s0 level p dst Hf R; [lia|]; rewrite h_json_S; pose proof (frep_leaf _ _ _ _ _ _ R eq_refl eq_refl) as X;
    (destruct p as [l|]; [|discriminate]); destruct X as (Q & D & _); cbn [tag] in D; rewrite D, Q;
    match goal with |- context [jt level ?v dst] => fold (jt level v dst); pose proof (jt_leaf_fuel level v dst eq_refl) as Z; 
      destruct (jt level v dst); [apply writes_here|reflexivity|reflexivity|congruence] end.
Qed.
End Json.
