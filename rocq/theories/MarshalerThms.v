(** Importing Go values with [EncodeToDxValue] methods: proofs. *)
From Coq Require Import Permutation.
From Verif Require Import Base Values Tactics HeapMerge HeapModel MsgLoadModel ReflectModel ReflectInd HeapSpec MsgLoadSpec ReflectSpec
  HeapBase HeapConf HeapGet HeapCalls HeapObj HeapForce HeapTree HeapClone HeapMap HeapBuild HeapTyped ReflectThms ReflectPerm ReflectRoot
  MarshalModel CopyThms MarshalerModel MarshalerSpec.

(** ** Induction *)
Section Ind.
Variable P : mval -> Prop.
Hypothesis Hplain : forall g, P (MPlain g).
Hypothesis Hobj : forall p n x, P x -> P (MObj p n x).
Hypothesis Hptr : forall x, P x -> P (MPtr x).
Hypothesis Hnil : forall p n, P (MNilPtr p n).
Hypothesis Hmap : forall kvs, Forall (fun kv => P (snd kv)) kvs -> P (MMap kvs).
Hypothesis Hlist : forall l, Forall P l -> P (MList l).
Hypothesis Hstruct : forall fs, Forall (fun f => P (snd f)) fs -> P (MStruct fs).
Hypothesis Hrmap : forall i kvs, Forall (fun kv => P (snd kv)) kvs -> P (MRMap i kvs).
Hypothesis Hrslice : forall i l, Forall P l -> P (MRSlice i l).
Hypothesis Hdx : forall p, P (MDx p).
Hypothesis Hdxval : forall m, P (MDxVal m).
Fixpoint mval_ind' (g : mval) : P g :=
  let prs := fix go (l : list (bytes * mval)) : Forall (fun kv => P (snd kv)) l :=
    match l with [] => Forall_nil _ | kv :: r => Forall_cons kv (mval_ind' (snd kv)) (go r) end in
  let els := fix go (l : list mval) : Forall P l :=
    match l with [] => Forall_nil _ | x :: r => Forall_cons x (mval_ind' x) (go r) end in
  let fls := fix go (l : list (bytes * bool * bool * mval)) : Forall (fun f => P (snd f)) l :=
    match l with [] => Forall_nil _ | x :: r => Forall_cons x (mval_ind' (snd x)) (go r) end in
  match g with
  | MPlain g => Hplain g | MObj p n x => Hobj p n x (mval_ind' x) | MPtr x => Hptr x (mval_ind' x) | MNilPtr p n => Hnil p n
  | MMap kvs => Hmap kvs (prs kvs) | MList l => Hlist l (els l) | MStruct fs => Hstruct fs (fls fs)
  | MRMap i kvs => Hrmap i kvs (prs kvs) | MRSlice i l => Hrslice i l (els l)
  | MDx p => Hdx p | MDxVal m => Hdxval m
  end.
End Ind.
Definition below (P : mval -> Prop) (x : mval) : Prop := P x /\ forall x', x = MPtr x' -> P x'.

Section Thms.
Variable E : env.
Variable G : nat -> nat.
Notation N := none_set.
Lemma store_effect s d p : wf s -> ready E s d -> live s (at_loc d) -> ok_ptr N s p -> let s3 := store E G s d p in
  wf s3 /\ added d p s s3 /\ (forall x, x <> at_loc d -> hp s3 x = hp s x) /\ nx s3 = nx s /\ cs s3 = cs s /\ nc s3 = nc s.
Proof.
  intros W RD L OP. assert (O : ok_loc N s (at_loc d)) by (split; [apply L|intros []]).
  destruct d as [r|r k|r i]; [destruct RD| |]; cbn [at_loc store added] in *.
  - split; [apply (tr_SetKeyValue N N E G s r k p W O OP)|]. destruct RD as (D & FK & UN).
    unfold SetKeyValue. rewrite D. change (vt_eqb TObject TArray) with false. change (vt_eqb TObject TObject) with true. cbn [andb].
    assert (OI : obj_index E s r k = (None, set_cell s r (w_obj (hp s r) true (c_kvs (hp s r)) (c_spare (hp s r))))).
    { unfold obj_index, index_by_name. destruct UN as [UN|UN].
      - rewrite UN. cbn [negb andb]. unfold unescape_keys. rewrite FK. reflexivity.
      - rewrite UN. unfold unescape_keys. cbn [find_key map]. destruct (c_unesc (hp s r)); cbn [negb andb find_key map]; [reflexivity|].
        destruct (no_backslash k); reflexivity. }
    rewrite OI. cbn [set_cell hp nx cs nc]. rewrite !upd_same.
    destruct (push_fields G (w_obj (hp s r) true (c_kvs (hp s r)) (c_spare (hp s r))) k p) as (P1 & P2 & P3).
    rewrite P1, P2, P3. cbn [w_obj c_dt c_unesc c_kvs]. split; [auto|]. split; [|auto]. intros x Q. rewrite !upd_other; auto.
  - split; [apply (tr_SetIndexValue N N s r i p W O OP)|]. destruct RD as (D & LE).
    assert (Q : SetIndexValue s r i p = set_cell s r (w_arr (hp s r) (c_arr (hp s r) ++ [p]))).
    { unfold SetIndexValue. rewrite D. change (vt_eqb TArray TArray) with true. cbv zeta iota.
      destruct ((0 <=? i) && (i <? zlen (c_arr (hp s r)))) eqn:Z; [lia|reflexivity]. }
    rewrite Q. cbn [set_cell hp nx cs nc]. rewrite upd_same. split; [auto|]. split; [|auto]. intros x QX. apply upd_other; auto.
Qed.
(** The part of the memory that may be shared with the new values: the constants, and what is lent. *)
Variable X : nat -> Prop.
Variable h0 : nat -> cell.
Hypothesis XC : forall x, (x < 5)%nat -> X x.
Hypothesis XS : forall x y, X x -> sees (h0 x) y -> X y.
Definition lent (s : st) : Prop := forall x, X x -> live s x /\ hp s x = h0 x.
Definition fit (s : st) (c : option nat) (r : nat) : Prop := usable s c r /\ lent s /\ ~ X r.

(** ** Filling a cell, without a promise about the caches that are used *)
Record held (s : st) (r : nat) (s' : st) : Prop := {
  hl_lives : forall x, live s x -> live s' x;
  hl_frame : forall x, live s x -> x <> r -> hp s' x = hp s x;
  hl_nc : (nc s <= nc s')%nat }.
Definition sprout (s s' : st) (y : nat) : Prop :=
  forall x, reach (hp s') y x -> X x \/ ((5 <= x)%nat /\ ~ live s x /\ live s' x).
Record bred (s1 : st) (r : nat) (s : st) : Prop := {
  br_wf : wf s;
  br_held : held s1 r s;
  br_kid : forall y, sees (hp s r) y -> sprout s1 s y }.
Record laid (s : st) (d : dest) (p : ptr) (v : value) (s3 : st) : Prop := {
  ld_wf : wf s3;
  ld_held : held s (at_loc d) s3;
  ld_kid : forall y, p = Some y -> sprout s s3 y;
  ld_add : added d p s s3;
  ld_shows : shows (hp s3) p v }.
Definition acts (r : res st) (s : st) d (v : value) : Prop := exists p s3, r = Ok s3 /\ laid s d p v s3.

Lemma held_trans s r s1 s2 : held s r s1 -> held s1 r s2 -> held s r s2.
Proof. intros [A B C] [A' B' C']. constructor; auto; [|lia]. intros x L Q. rewrite B' by auto. auto. Qed.
Lemma filled_held s c r s' : wf s -> ok_cache N s c -> live s r -> filled s c r s' -> held s r s'.
Proof.
  intros W OC L [A B _ T]. constructor; auto. assert (O : ok_loc N s r) by (split; [apply L|intros []]).
  destruct (T N N W OC O) as (_ & _ & X1). apply X1.
Qed.
Lemma laid_of s c d p v s3 : usable s c (at_loc d) -> placed s c d p v s3 -> laid s d p v s3.
Proof.
  intros (W & OC & L & _) [A B C D F _]. constructor; auto; [apply (filled_held s c); auto|].
  intros y Q. intros x R. destruct (kd_new _ _ _ _ _ (C y Q) x R) as [Z|Z]; auto.
Qed.
Lemma bred_of s c r s' : usable s c r -> grown s c r s' -> bred s r s'.
Proof.
  intros (W & OC & L & _) [A B C _]. constructor; auto; [apply (filled_held s c); auto|].
  intros y Q x R. destruct (kd_new _ _ _ _ _ (C y Q) x R) as [Z|Z]; auto.
Qed.
Lemma held_usable s c r s' : usable s c r -> wf s' -> held s r s' -> usable s' c r.
Proof.
  intros (W & OC & L & L5) W' [A B C]. split; [exact W'|]. split; [|split; auto].
  intros k Q. destruct (OC k Q) as [K _]. split; [lia|intros []].
Qed.
Lemma lent_held s r s' : lent s -> ~ X r -> held s r s' -> lent s'.
Proof.
  intros L NX [A B _] x Z. destruct (L x Z) as [L1 L2]. split; [auto|]. rewrite B; auto. intros ->. auto.
Qed.
Lemma held_fit s c r s' : fit s c r -> wf s' -> held s r s' -> fit s' c r.
Proof. intros (U & L & NX) W H. split; [apply (held_usable s); auto|]. split; [apply (lent_held s r); auto|exact NX]. Qed.
Lemma lent_reach s x z : lent s -> X x -> reach (hp s) x z -> X z.
Proof.
  intros L Z R. induction R as [|y z R IH S]; [exact Z|]. apply (XS y); [exact IH|]. destruct (L y IH) as [_ <-]. exact S.
Qed.
Lemma lent_shows s p v : lent s -> (forall m, p = Some m -> X m) -> shows h0 p v -> shows (hp s) p v.
Proof.
  intros L Z (w & R & LW). exists w. split; [|exact LW]. apply (rep_frame h0); [exact R|]. intros x (m & -> & RX).
  assert (ZX : X x). { clear - RX Z XS. specialize (Z m eq_refl). induction RX as [|y z R IH S]; [exact Z|]. exact (XS y z IH S). }
  apply (L x ZX).
Qed.

(** Obtaining the cell. *)
Lemma clean_shows h x t : clean (h x) t -> t = TInt \/ t = TObject \/ t = TArray -> exists v, shows h (Some x) v.
Proof.
  intros (D & _ & U & K & _ & _ & A) [->|[->| ->]].
  - eexists. exists (VInt (c_ext (h x)) (to_i64 (c_sv (h x)))). split; [apply rep_int; exact D|reflexivity].
  - exists (VObject (c_unesc (h x)) []). apply shows_obj; auto. rewrite K. constructor.
  - exists (VArray []). apply shows_arr; auto. rewrite A. constructor.
Qed.
Lemma obtain s c d t : fit s c (at_loc d) -> ready E s d -> t = TInt \/ t = TObject \/ t = TArray ->
  exists x sB, acquire E G s d t c = Ok (x, sB) /\ fit sB c x /\ clean (hp sB x) t /\
    forall s3 v, bred sB x s3 -> shows (hp s3) (Some x) v -> laid s d (Some x) v s3.
Proof.
  intros (U & LE & NXR) RD T. destruct (acq E G s c d t U RD) as (x & sB & Q & UB & CL & FI).
  destruct (clean_shows (hp sB) x t CL T) as [v0 S0].
  pose proof (FI sB v0 (grown_refl _ _ _ _ UB CL) S0) as PL.
  pose proof UB as (WB & _ & LB & L5). pose proof U as (W & _ & L & _).
  assert (NX : ~ live s x).
  { destruct (kd_new _ _ _ _ _ (pd_kid _ _ _ _ _ _ PL x eq_refl) x (reach_refl _ _)) as [Y|(_ & Y & _)]; [lia|exact Y]. }
  destruct (laid_of _ _ _ _ _ _ U PL) as [_ HB KB AB _].
  exists x, sB. split; [exact Q|]. split.
  { split; [exact UB|]. split; [apply (lent_held s (at_loc d)); auto|]. intros Z. apply NX, (LE x Z). }
  split; [exact CL|]. intros s3 v [W3 H3 K3] SH.
  constructor.
  - exact W3.
  - constructor.
    + intros z Z. apply (hl_lives _ _ _ H3), (hl_lives _ _ _ HB), Z.
    + intros z Z R. rewrite (hl_frame _ _ _ H3); [apply (hl_frame _ _ _ HB); auto|apply (hl_lives _ _ _ HB), Z|intros ->; auto].
    + destruct HB, H3. lia.
  - intros y Y. injection Y as <-. intros z R. apply reach_cases in R as [->|(y & Sy & R)].
    + right. split; [exact L5|]. split; [exact NX|]. apply (hl_lives _ _ _ H3), LB.
    + destruct (K3 y Sy z R) as [Z|(Z1 & Z2 & Z3)]; [left; exact Z|right]. split; [exact Z1|]. split; [|exact Z3].
      intros Z. apply Z2, (hl_lives _ _ _ HB), Z.
  - assert (HR : hp s3 (at_loc d) = hp sB (at_loc d)).
    { apply (hl_frame _ _ _ H3); [apply (hl_lives _ _ _ HB), L|]. intros Q'. apply NX. rewrite <- Q'. exact L. }
    clear - AB HR. destruct d; cbn [added at_loc] in *; [exact AB| |]; rewrite HR; exact AB.
  - exact SH.
Qed.

(** One step of filling a container. *)
Lemma lay_step s1 c d p v s s3 : fit s1 c (at_loc d) -> bred s1 (at_loc d) s -> ready E s d -> laid s d p v s3 ->
  bred s1 (at_loc d) s3 /\
  (forall q u, (forall y, q = Some y -> sees (hp s (at_loc d)) y) -> shows (hp s) q u -> shows (hp s3) q u).
Proof.
  intros ((W1 & OC & L1 & L5) & LE & NXR) [W H K] RD [W3 H3 KX AD _].
  pose proof (lent_held _ _ _ LE NXR H) as LS.
  assert (OLD : forall y, sees (hp s (at_loc d)) y -> sprout s1 s3 y /\ (forall z, reach (hp s) y z -> hp s3 z = hp s z)).
  { intros y Y. assert (Q : forall z, reach (hp s) y z -> hp s3 z = hp s z).
    { intros z R. destruct (K y Y z R) as [Z|(Z1 & Z2 & Z3)].
      - apply (hl_frame _ _ _ H3); [apply (LS z Z)|]. intros ->. auto.
      - apply (hl_frame _ _ _ H3); [exact Z3|]. intros ->. auto. }
    split; [|exact Q]. intros z R. apply (reach_same _ _ _ Q) in R.
    destruct (K y Y z R) as [Z|(Z1 & Z2 & Z3)]; [left; exact Z|right]. split; [exact Z1|]. split; [exact Z2|]. apply (hl_lives _ _ _ H3), Z3. }
  split.
  - constructor; [exact W3|eapply held_trans; eauto|]. intros y Y.
    destruct (added_sees E d p s s3 y RD AD Y) as [Q|Q]; [|apply OLD; exact Q].
    intros z R. destruct (KX y Q z R) as [Z|(Z1 & Z2 & Z3)]; [left; exact Z|right]. split; [exact Z1|]. split; [|exact Z3].
    intros Z. apply Z2, (hl_lives _ _ _ H), Z.
  - intros q u Q (w & R & LW). exists w. split; [|exact LW]. apply (rep_frame (hp s)); auto.
    intros z (y & QY & Z). apply (OLD y (Q y QY)); auto.
Qed.
Lemma bred_refl s c x t : usable s c x -> clean (hp s x) t -> bred s x s.
Proof. intros U CL. apply (bred_of s c); [exact U|]. eapply grown_refl; eauto. Qed.
Lemma bred_fit s1 c r s : fit s1 c r -> bred s1 r s -> fit s c r.
Proof. intros U [W H _]. apply (held_fit s1); auto. Qed.

(** ** The loops *)
Lemma keys_lay {A} (f : st -> bytes -> A -> res st) (gv : A -> value) sB c x kvs : fit sB c x -> clean (hp sB x) TObject ->
  (forall k a s, In (k, a) kvs -> fit s c x -> ready E s (DKey x k) -> acts (f s k a) s (DKey x k) (gv a)) ->
  no_clash E kvs ->
  exists s', over_keys f kvs sB = Ok s' /\ bred sB x s' /\
    shows (hp s') (Some x) (obj_of (map (fun kv => (fst kv, gv (snd kv))) kvs)).
Proof.
  intros U CL H NC.
  assert (GO : forall kvs s done, bred sB x s -> c_dt (hp s x) = TObject -> c_unesc (hp s x) = some_keys done ->
     Forall2 (kvR (shows (hp s))) (c_kvs (hp s x)) done ->
     (forall k a s, In (k, a) kvs -> fit s c x -> ready E s (DKey x k) -> acts (f s k a) s (DKey x k) (gv a)) ->
     no_clash E kvs -> (forall k a k' v, In (k, a) kvs -> In (k', v) done -> key_match E k' k = false) ->
     exists s', over_keys f kvs s = Ok s' /\ bred sB x s' /\
       shows (hp s') (Some x) (obj_of (done ++ map (fun kv => (fst kv, gv (snd kv))) kvs))).
  { clear H NC kvs CL. induction kvs as [|[k a] kvs IH]; intros s done GR D UN F H NC AP.
    - exists s. split; [reflexivity|]. split; [exact GR|]. cbn [map]. rewrite app_nil_r. apply shows_obj; auto.
    - pose proof (bred_fit _ _ _ _ U GR) as US.
      assert (RD : ready E s (DKey x k)).
      { cbn [ready]. split; [exact D|]. split.
        - apply find_key_none'. intros k' p I. destruct (kvR_keys _ _ _ _ _ F I) as [v V]. eapply AP; [left; reflexivity|exact V].
        - rewrite UN. destruct done; [right; inversion F; auto|left; reflexivity]. }
      destruct (H k a s (or_introl eq_refl) US RD) as (p & s3 & Q & PL). inversion NC as [|? ? N1 N2]; subst.
      destruct (lay_step sB c (DKey x k) p (gv a) s s3 U GR RD PL) as [GR3 OLD]. cbn [at_loc] in GR3, OLD.
      destruct (ld_add _ _ _ _ _ PL) as (D3 & UN3 & KV3).
      destruct (IH s3 (done ++ [(k, gv a)]) GR3 D3) as (s' & Q' & GR' & SH).
      + rewrite UN3. symmetry. apply some_keys_app.
      + rewrite KV3. apply Forall2_app.
        * eapply Forall2_impl_in; [exact F|]. intros [k1 p1] [k2 v2] I [E1 E2]. split; [exact E1|]. cbn [snd] in *.
          apply OLD; [|exact E2]. intros y ->. unfold sees. rewrite D. change (Some y) with (snd (k1, Some y)). apply in_map; auto.
        * constructor; [split; [reflexivity|apply PL]|constructor].
      + intros k' a' s0 I. apply H. right; auto.
      + exact N2.
      + intros k1 a1 k2 v2 I J. apply in_app_or in J as [J|[J|[]]]; [eapply AP; [right; exact I|exact J]|].
        injection J as <- <-. rewrite Forall_forall in N1. apply (N1 _ I).
      + exists s'. split; [|split; [exact GR'|rewrite <- app_assoc in SH; exact SH]].
        cbn [over_keys]. rewrite Q. exact Q'. }
  destruct (GO kvs sB [] (bred_refl _ _ _ _ (proj1 U) CL)) as (s' & Q & GR & SH); auto.
  - apply CL.
  - apply CL.
  - destruct CL as (_ & _ & _ & -> & _). constructor.
  - intros ? ? ? ? _ [].
  - exists s'. auto.
Qed.
Lemma list_lay {A} (f : st -> Z -> A -> res st) (gv : A -> value) sB c x l : fit sB c x -> clean (hp sB x) TArray ->
  (forall i a s, In a l -> fit s c x -> ready E s (DIdx x i) -> acts (f s i a) s (DIdx x i) (gv a)) ->
  exists s', over_list f 0 l sB = Ok s' /\ bred sB x s' /\ shows (hp s') (Some x) (VArray (map gv l)).
Proof.
  intros U CL H.
  assert (GO : forall l s i done, bred sB x s -> c_dt (hp s x) = TArray -> zlen (c_arr (hp s x)) <= i ->
     Forall2 (shows (hp s)) (c_arr (hp s x)) done ->
     (forall i a s, In a l -> fit s c x -> ready E s (DIdx x i) -> acts (f s i a) s (DIdx x i) (gv a)) ->
     exists s', over_list f i l s = Ok s' /\ bred sB x s' /\ shows (hp s') (Some x) (VArray (done ++ map gv l))).
  { clear H l CL. induction l as [|a l IH]; intros s i done GR D LE F H.
    - exists s. split; [reflexivity|]. split; [exact GR|]. cbn [map]. rewrite app_nil_r. apply shows_arr; auto.
    - pose proof (bred_fit _ _ _ _ U GR) as US.
      assert (RD : ready E s (DIdx x i)) by (split; auto).
      destruct (H i a s (or_introl eq_refl) US RD) as (p & s3 & Q & PL).
      destruct (lay_step sB c (DIdx x i) p (gv a) s s3 U GR RD PL) as [GR3 OLD]. cbn [at_loc] in GR3, OLD.
      destruct (ld_add _ _ _ _ _ PL) as (D3 & KV3).
      destruct (IH s3 (i + 1) (done ++ [gv a]) GR3 D3) as (s' & Q' & GR' & SH).
      + rewrite KV3. unfold zlen in *. rewrite app_length. cbn [List.length]. lia.
      + rewrite KV3. apply Forall2_app.
        * eapply Forall2_impl_in; [exact F|]. intros p1 v1 I E2.
          apply OLD; [|exact E2]. intros y ->. unfold sees. rewrite D. auto.
        * constructor; [apply PL|constructor].
      + intros k' a' s0 I. apply H. right; auto.
      + exists s'. split; [|split; [exact GR'|rewrite <- app_assoc in SH; exact SH]].
        cbn [over_list]. rewrite Q. exact Q'. }
  destruct (GO l sB 0 [] (bred_refl _ _ _ _ (proj1 U) CL)) as (s' & Q & GR & SH); auto.
  - apply CL.
  - destruct CL as (_ & _ & _ & _ & _ & _ & ->). unfold zlen; cbn; lia.
  - destruct CL as (_ & _ & _ & _ & _ & _ & ->). constructor.
  - exists s'. auto.
Qed.

(** Structs as lists of keys. *)
Definition mfld (f : bytes * bool * bool * mval) : bytes * (bool * bool * mval) :=
  match f with (k, ex, ifc, x) => (k, (ex, ifc, x)) end.
Lemma named_keys f fs s : over_named f fs s =
  over_keys (fun s k a => f s k (fst (fst a)) (snd (fst a)) (snd a)) (map mfld fs) s.
Proof.
  revert s. induction fs as [|[[[k ex] ifc] x] fs IH]; intros s; [reflexivity|]. cbn [map mfld].
  cbn [over_named over_keys fst snd]. destruct (f s k ex ifc x); cbn [bind]; auto.
Qed.
Lemma no_clash_mfld fs : no_clash E (map mname fs) -> no_clash E (map mfld fs).
Proof.
  intros H. apply (no_clash_map E (fun a => snd a)). rewrite map_map.
  replace (map _ fs) with (map mname fs); auto. apply map_ext. intros [[[k ex] ifc] x]. reflexivity.
Qed.

Section Run.
Variable run : nat -> st -> nat -> res st.
Variable says : nat -> value.
Notation massign := (massign E G run).
Variable dx : nat -> value.
Notation mkept := (mkept E run says X h0 dx).
Notation lentv := (lentv X h0 dx).
Notation mgoal := (mgoal E says dx).

(** The call of a method. *)
Lemma call_acts n s c d : writes (run n) (says n) -> fit s c (at_loc d) -> ready E s d ->
  acts (call E G run n s d c) s d (says n).
Proof.
  intros WR U RD. destruct (obtain s c d TInt U RD (or_introl eq_refl)) as (x & sB & Q & UB & CL & FI).
  destruct UB as ((WB & OB & LB & L5) & LE & NXR). destruct (WR sB x WB LB L5 CL) as (s' & Q' & W' & NC & SH & FR & LV & RE).
  assert (QC : call E G run n s d c = Ok s').
  { destruct d; [destruct RD| |]; cbn [call]; rewrite Q; cbn [bind]; exact Q'. }
  exists (Some x), s'. split; [exact QC|]. apply FI; [|exact SH]. constructor; [exact W'|constructor; auto|].
  intros y Y z R. assert (R' : reach (hp s') x z) by (eapply reach_trans; [apply reach_child; exact Y|exact R]).
  destruct (le_lt_dec 5 z) as [Z5|Z5]; [|left; apply XC, Z5]. right. split; [exact Z5|].
  destruct (RE z R') as [->|[Z|Z]]; [|lia|exact Z]. exfalso.
  (* a cycle through [x] is no finite tree *)
  destruct SH as (w & RP & _). exact (rep_acyclic G _ _ _ _ RP Y R).
Qed.

Definition mmain (x : mval) : Prop := forall rv s c d, mkept rv x -> fit s c (at_loc d) -> ready E s d ->
  acts (massign rv x s d c) s d (mgoal x).

Lemma does_acts r s c d v : usable s c (at_loc d) -> does r s c d (Some v) -> acts r s d v.
Proof. intros U (p & s3 & Q & PL). exists p, s3. split; [exact Q|]. apply (laid_of s c); auto. Qed.
Lemma plain_acts rv g s c d : kept E rv g -> fit s c (at_loc d) -> ready E s d -> acts (assign E G rv g s d c) s d (goal E g).
Proof.
  intros K U RD. destruct (proj1 (kept_good E g) rv true K) as [T TR]. apply (does_acts _ _ c); [exact (proj1 U)|]. rewrite <- TR.
  apply (proj1 (main_all E G g) rv true); auto; [apply U|]. destruct d; auto.
Qed.
Lemma plain_field_acts ex g s c r k : kept E false (GStruct [([], ex, false, g)]) -> fit s c r -> ready E s (DKey r k) ->
  acts (assign_field E G true ex g s r k c) s (DKey r k) (goal E g).
Proof.
  intros [_ [K _]] U RD. unfold assign_field.
  assert (SC : forall y, sc_kept y /\ not_uint y -> acts (put_kind E G true s r k y c) s (DKey r k) (sc_goal y)).
  { intros y [KY NU]. destruct (kept_type y KY) as [T Q]. rewrite <- Q. apply (does_acts _ _ c); [exact (proj1 U)|]. apply (put_kind_slot E G true); auto. apply U. }
  destruct g as [|n y|t|b|m|m|m|l|l|f1|i1 m|i1 l|g'|b1|].
  2:{ apply SC. exact K. }
  12:{ destruct g' as [|n y|t|b|m|m|m|l|l|f1|i1 m|i1 l|g'|b1|].
       2:{ apply SC. exact K. }
       all: destruct K as [-> K]; match goal with K : kept E false ?g |- _ => exact (plain_acts false g s c (DKey r k) K U RD) end. }
  all: destruct K as [-> K]; try (match goal with K : kept E false ?g |- _ => exact (plain_acts false g s c (DKey r k) K U RD) end). discriminate.
Qed.
Lemma plain_elem_acts g s c r k : kept E false (GRMap false [([], g)]) -> fit s c r -> ready E s (DKey r k) ->
  acts (assign_field E G false true g s r k c) s (DKey r k) (goal E g).
Proof.
  intros (_ & _ & K & _) U RD. unfold assign_field.
  assert (SC : forall y, sc_kept y -> acts (put_kind E G false s r k y c) s (DKey r k) (sc_goal y)).
  { intros y KY. destruct (kept_type y KY) as [T Q]. rewrite <- Q. apply (does_acts _ _ c); [exact (proj1 U)|]. apply (put_kind_slot E G false); auto; [apply U|discriminate]. }
  destruct g as [|n y|t|b|m|m|m|l|l|f1|i1 m|i1 l|g'|b1|].
  2:{ apply SC. exact K. }
  12:{ destruct g' as [|n y|t|b|m|m|m|l|l|f1|i1 m|i1 l|g'|b1|].
       2:{ apply SC. exact K. }
       all: match goal with K : kept E false ?g |- _ => exact (plain_acts false g s c (DKey r k) K U RD) end. }
  all: try (match goal with K : kept E false ?g |- _ => exact (plain_acts false g s c (DKey r k) K U RD) end). discriminate.
Qed.

(** Values that are lent. *)
Lemma same_live s s' x : nx s' = nx s -> cs s' = cs s -> nc s' = nc s -> live s x -> live s' x.
Proof. intros A B C [L1 L2]. split; [rewrite A; exact L1|rewrite B, C; exact L2]. Qed.
Lemma store_acts s c d p v : fit s c (at_loc d) -> ready E s d -> (forall m, p = Some m -> X m) -> shows h0 p v ->
  acts (Ok (store E G s d p)) s d v.
Proof.
  intros ((W & OC & L & L5) & LE & NXR) RD XP SH.
  assert (OP : ok_ptr N s p) by (intros m Q; split; [apply (LE m (XP m Q))|intros []]).
  destruct (store_effect s d p W RD L OP) as (W3 & AD & FR & Q1 & Q2 & Q3). set (s3 := store E G s d p) in *. clearbody s3.
  assert (H3 : held s (at_loc d) s3) by (constructor; auto; [intros x; apply same_live; auto|lia]).
  pose proof (lent_held _ _ _ LE NXR H3) as L3. exists p, s3. split; [reflexivity|]. constructor; auto.
  - intros y Q z R. left. apply (lent_reach s3 y); auto.
  - apply lent_shows; auto.
Qed.
Lemma copy_acts s c d m v : fit s c (at_loc d) -> ready E s d -> X m -> shows h0 (Some m) v ->
  acts (Ok (store_copy E G s d m)) s d v.
Proof.
  intros ((W & OC & L & L5) & LE & NXR) RD XM SH. unfold store_copy. set (s1 := copy_of s m).
  destruct (LE m XM) as [LM HM]. pose proof (copy_wf s m W (proj1 LM)) as W1. fold s1 in W1.
  assert (LV : forall x, live s x -> live s1 x) by (intros x Z; apply copy_live; auto).
  assert (LN : live s1 (nx s)) by (apply copy_live; auto).
  assert (HP : forall x, (x < nx s)%nat -> hp s1 x = hp s x) by (intros x; apply copy_hp).
  assert (RD1 : ready E s1 d).
  { clear - RD HP L. destruct d; cbn [ready at_loc] in *; [exact RD| |]; rewrite HP by apply L; exact RD. }
  assert (OP : ok_ptr N s1 (Some (nx s))) by (intros y Q; injection Q as <-; split; [apply LN|intros []]).
  destruct (store_effect s1 d (Some (nx s)) W1 RD1 (LV _ L) OP) as (W3 & AD & FR & Q1 & Q2 & Q3).
  set (s3 := store E G s1 d (Some (nx s))) in *. clearbody s3.
  assert (NL : ~ live s (nx s)) by (intros [Z _]; lia).
  assert (NE : nx s <> at_loc d) by (intros Z; rewrite <- Z in L; auto).
  assert (H3 : held s (at_loc d) s3).
  { constructor; [|intros x Z Q; rewrite FR by auto; apply HP, Z|cbn in Q3; lia]. intros x Z. apply (same_live s1); auto. }
  pose proof (lent_held _ _ _ LE NXR H3) as L3.
  assert (HN : hp s3 (nx s) = h0 m) by (rewrite FR by auto; unfold s1; rewrite copy_at; exact HM).
  assert (RE : forall z, reach (hp s3) (nx s) z -> z = nx s \/ X z).
  { intros z R. apply reach_cases in R as [->|(y & Sy & R)]; [auto|]. right. rewrite HN in Sy. apply (lent_reach s3 y); auto. exact (XS m y XM Sy). }
  exists (Some (nx s)), s3. split; [reflexivity|]. constructor; auto.
  - intros y Q z R. injection Q as <-. destruct (RE z R) as [->|Z]; [|auto]. right. split; [destruct L; lia|]. split; [exact NL|].
    apply (same_live s1); auto.
  - clear - AD HP L. destruct d; cbn [added at_loc] in *; [exact AD| |]; rewrite HP in AD by apply L; exact AD.
  - destruct (lent_shows s (Some m) v LE) as (w & R & LW); [intros y Q; injection Q as <-; exact XM|exact SH|].
    exists w. split; [|exact LW]. apply (rep_frame (hp s1)); [apply copy_rep; auto; apply LM|].
    intros x (y & Q & RX). injection Q as <-. apply FR. intros ->.
    apply reach_cases in RX as [Z|(y & Sy & RX)]; [auto|]. apply NXR.
    assert (L1 : lent s1). { intros z Z. destruct (LE z Z) as [A B]. split; [auto|]. rewrite HP; [exact B|apply A]. }
    apply (lent_reach s1 y); auto. apply (XS m y XM). unfold s1 in Sy. rewrite copy_at, HM in Sy. exact Sy.
Qed.

(** The objects and arrays. *)
Lemma obj_acts {A} (f : nat -> st -> bytes -> A -> res st) (gv : A -> value) s c d kvs : fit s c (at_loc d) -> ready E s d ->
  (forall x k a s, In (k, a) kvs -> fit s c x -> ready E s (DKey x k) -> acts (f x s k a) s (DKey x k) (gv a)) ->
  no_clash E kvs ->
  acts (do (r, s1) <- acquire E G s d TObject c; over_keys (f r) kvs s1) s d (obj_of (map (fun kv => (fst kv, gv (snd kv))) kvs)).
Proof.
  intros U RD H NC. destruct (obtain s c d TObject U RD) as (x & sB & Q & UB & CL & FI); [auto|]. rewrite Q. cbn [bind].
  destruct (keys_lay (f x) gv sB c x kvs UB CL) as (s' & Q' & GR & SH); auto. exists (Some x), s'. split; [exact Q'|]. apply FI; auto.
Qed.
Lemma arr_acts {A} (f : nat -> st -> Z -> A -> res st) (gv : A -> value) s c d l : fit s c (at_loc d) -> ready E s d ->
  (forall x i a s, In a l -> fit s c x -> ready E s (DIdx x i) -> acts (f x s i a) s (DIdx x i) (gv a)) ->
  acts (do (r, s1) <- acquire E G s d TArray c; over_list (f r) 0 l s1) s d (VArray (map gv l)).
Proof.
  intros U RD H. destruct (obtain s c d TArray U RD) as (x & sB & Q & UB & CL & FI); [auto|]. rewrite Q. cbn [bind].
  destruct (list_lay (f x) gv sB c x l UB CL) as (s' & Q' & GR & SH); auto. exists (Some x), s'. split; [exact Q'|]. apply FI; auto.
Qed.

(** The conditions, element by element. *)
Definition mfield_kept (f : bytes * bool * bool * mval) : Prop :=
  match f with (_, exported, iface, x) =>
    if iface then exported = true /\ mkept false x
    else match x with
         | MPlain g => kept E false (GStruct [([], exported, false, g)])
         | MNilPtr _ _ | MDx None => False
         | MPtr x' => exported = true /\ by_kind x' = None /\ ~ loses_method x' /\ mkept false x'
         | _ => exported = true /\ by_kind x = None /\ mkept false x
         end
  end.
Definition melem_kept (iface : bool) (kv : bytes * mval) : Prop :=
  if iface then mkept false (snd kv)
  else match snd kv with
       | MPlain g => kept E false (GRMap false [([], g)])
       | MNilPtr _ _ | MDx None => False
       | MPtr x' => by_kind x' = None /\ ~ loses_method x' /\ mkept false x'
       | _ => by_kind (snd kv) = None /\ mkept false (snd kv)
       end.
Lemma mkept_struct rv fs : mkept rv (MStruct fs) <-> no_clash E (map mname fs) /\ Forall mfield_kept fs.
Proof.
  cbn [MarshalerSpec.mkept]. apply and_iff_compat_l. induction fs as [|[[[k ex] ifc] x] fs IH]; [split; constructor|].
  rewrite IH. split; [intros [? ?]; constructor; auto|intros H; inversion H; auto].
Qed.
Lemma mkept_rmap rv ifc kvs : mkept rv (MRMap ifc kvs) <-> kvs <> [] /\ no_clash E kvs /\ Forall (melem_kept ifc) kvs.
Proof.
  cbn [MarshalerSpec.mkept]. apply and_iff_compat_l, and_iff_compat_l. induction kvs as [|[k x] kvs IH]; [split; constructor|].
  rewrite IH. split; [intros [? ?]; constructor; auto|intros H; inversion H; auto].
Qed.

Definition mfield (r : nat) (c : option nat) (s : st) (name : bytes) (exported iface : bool) (x : mval) : res st :=
  if iface then if exported then massign false x s (DKey r name) c else Ok s
  else
    match x with
    | MNilPtr _ _ | MDx None => Panic
    | MDx (Some m) => if exported then Ok (store_copy E G s (DKey r name) m) else Ok s
    | MPlain g => assign_field E G true exported g s r name c
    | MPtr x' =>
        match by_kind x' with
        | Some y => put_kind E G true s r name y c
        | None => if exported then massign false x' s (DKey r name) c else Ok s
        end
    | _ =>
        match by_kind x with
        | Some y => put_kind E G true s r name y c
        | None => if exported then massign false x s (DKey r name) c else Ok s
        end
    end.
Definition melem (iface : bool) (r : nat) (c : option nat) (s : st) (k : bytes) (x : mval) : res st :=
  if iface then massign false x s (DKey r k) c
  else
    match x with
    | MNilPtr _ _ | MDx None => Panic
    | MDx (Some m) => Ok (store_copy E G s (DKey r k) m)
    | MPlain g => assign_field E G false true g s r k c
    | MPtr x' =>
        match by_kind x' with
        | Some y => put_kind E G false s r k y c
        | None => massign false x' s (DKey r k) c
        end
    | _ =>
        match by_kind x with
        | Some y => put_kind E G false s r k y c
        | None => massign false x s (DKey r k) c
        end
    end.
Lemma mgoal_ptr x : ~ loses_method x -> mgoal (MPtr x) = mgoal x.
Proof. destruct x as [g|[] n x|x|p n|m|l|f|i m|i l|pd|md]; intros H; try reflexivity. destruct H. exact I. Qed.
Lemma is_dx x : (exists m, x = MDx (Some m)) \/ ~ exists m, x = MDx (Some m).
Proof. destruct x as [| | | | | | | | |[m|]|]; try (right; intros [? ?]; discriminate). left. eauto. Qed.
Lemma mfield_acts f r c k a s : below mmain (snd f) -> mfield_kept f -> (k, a) = mfld f -> fit s c r -> ready E s (DKey r k) ->
  acts (mfield r c s k (fst (fst a)) (snd (fst a)) (snd a)) s (DKey r k) (mgoal (snd a)).
Proof.
  destruct f as [[[k0 ex] ifc] x]. cbn [mfld snd mfield_kept]. intros [M1 M2] K Q U RD. injection Q as -> ->. cbn [fst snd]. unfold mfield.
  destruct ifc; [destruct K as [-> K]; apply M1; auto|].
  destruct (is_dx x) as [DX|ND].
  { destruct DX as [m ->]. destruct K as (-> & _ & K). apply (copy_acts s c); auto; apply K. }
  destruct x as [g|p n x|x|p n|m|l|f|i m|i l|pd|md]; try (destruct pd; [destruct ND; eauto|]); try (destruct K; fail);
    try (apply plain_field_acts; auto; fail);
    try (destruct K as (-> & BK & K); rewrite BK; apply M1; auto; fail).
  destruct K as (-> & BK & NL & K). rewrite BK, mgoal_ptr by exact NL. apply (M2 x eq_refl); auto.
Qed.
Lemma melem_acts ifc r c k x s : below mmain x -> melem_kept ifc (k, x) -> fit s c r -> ready E s (DKey r k) ->
  acts (melem ifc r c s k x) s (DKey r k) (mgoal x).
Proof.
  intros [M1 M2] K U RD. unfold melem_kept in K. cbn [snd] in K. unfold melem.
  destruct ifc; [apply M1; auto|].
  destruct (is_dx x) as [DX|ND].
  { destruct DX as [m ->]. destruct K as (_ & K). apply (copy_acts s c); auto; apply K. }
  destruct x as [g|p n x|x|p n|m|l|f|i m|i l|pd|md]; try (destruct pd; [destruct ND; eauto|]); try (destruct K; fail);
    try (apply plain_elem_acts; auto; fail);
    try (destruct K as (BK & K); rewrite BK; apply M1; auto; fail).
  destruct K as (BK & NL & K). rewrite BK, mgoal_ptr by exact NL. apply (M2 x eq_refl); auto.
Qed.

Lemma mgoal_fields fs : map (fun f => (fst (fst (fst f)), mgoal (snd f))) fs =
  map (fun kv : bytes * (bool * bool * mval) => (fst kv, mgoal (snd (snd kv)))) (map mfld fs).
Proof. rewrite map_map. apply map_ext. intros [[[k ex] ifc] x]. reflexivity. Qed.

Lemma mmain_all x : below mmain x.
Proof.
  induction x as [g|p n x IH|x IH|p n|kvs H|l H|fs H|i kvs H|i l H|pd|md] using mval_ind'; (split; [|try (intros; discriminate)]).
  - intros rv s c d K U RD. apply plain_acts; auto.
  - intros rv s c d K U RD. cbn [MarshalerModel.massign MarshalerSpec.mgoal MarshalerSpec.mkept] in *. destruct p; [apply (proj1 IH); auto|apply call_acts; auto].
  - intros rv s c d K U RD. cbn [MarshalerModel.massign] in *.
    destruct x as [g|p n x|x|p n|m|l|f|i m|i l|pd|md]; cbn [MarshalerSpec.mkept] in K.
    + change (mgoal (MPtr (MPlain g))) with (goal E g). destruct rv; [apply plain_acts; auto|apply (plain_acts false (GPtr g)); auto].
    + change (mgoal (MPtr (MObj p n x))) with (says n). destruct K as [P K].
      destruct rv; [rewrite (P eq_refl); cbn [MarshalerModel.massign]; apply call_acts; auto|apply call_acts; auto].
    + destruct K as [-> K]. change (mgoal (MPtr (MPtr x))) with (mgoal (MPtr x)). apply (proj1 IH); auto.
    + destruct K.
    + change (mgoal (MPtr (MMap m))) with (mgoal (MMap m)). destruct rv; apply (proj1 IH); auto.
    + change (mgoal (MPtr (MList l))) with (mgoal (MList l)). destruct rv; apply (proj1 IH); auto.
    + change (mgoal (MPtr (MStruct f))) with (mgoal (MStruct f)). destruct rv; apply (proj1 IH); auto.
    + change (mgoal (MPtr (MRMap i m))) with (mgoal (MRMap i m)). destruct rv; apply (proj1 IH); auto.
    + change (mgoal (MPtr (MRSlice i l))) with (mgoal (MRSlice i l)). destruct rv; apply (proj1 IH); auto.
    + destruct K as [-> K]. change (mgoal (MPtr (MDx pd))) with (mgoal (MDx pd)). apply (proj1 IH); auto.
    + destruct rv; [apply (proj1 IH true); auto|]. apply (store_acts s c); [exact U|exact RD| |apply K].
      intros m Q. injection Q as <-. apply K.
  - intros x' Q. injection Q as <-. exact (proj1 IH).
  - intros rv s c d (-> & -> & K) U RD. exact (call_acts n s c d K U RD).
  - intros rv s c d [NC K] U RD. apply conj_in in K. rewrite Forall_forall in H, K.
    cbn [MarshalerModel.massign MarshalerSpec.mgoal]. apply (obj_acts (fun r s k x => massign false x s (DKey r k) c) mgoal s c); auto.
    intros y k a s0 I U0 R0. apply (proj1 (H _ I)); auto; apply (K _ I).
  - intros rv s c d K U RD. cbn [MarshalerSpec.mkept] in K. apply conj_in in K. rewrite Forall_forall in H, K.
    cbn [MarshalerModel.massign MarshalerSpec.mgoal]. apply (arr_acts (fun r s i x => massign false x s (DIdx r i) c) mgoal s c); auto.
    intros y k a s0 I U0 R0. apply (proj1 (H _ I)); auto.
  - intros rv s c d K U RD. apply (mkept_struct rv) in K as [NC K]. rewrite Forall_forall in H, K.
    pose proof (obj_acts (fun r s k (a : bool * bool * mval) => mfield r c s k (fst (fst a)) (snd (fst a)) (snd a))
      (fun a => mgoal (snd a)) s c d (map mfld fs) U RD) as OS.
    cbn [MarshalerSpec.mgoal]. rewrite mgoal_fields.
    match type of OS with ?A -> _ => assert (HA : A) end.
    { intros y k a s0 I U0 R0. apply in_map_iff in I as (f & Q & I). apply (mfield_acts f); auto. }
    specialize (OS HA (no_clash_mfld fs NC)). clear HA.
    destruct OS as (p & s3 & Q & L). exists p, s3. split; [|exact L]. rewrite <- Q. cbn [MarshalerModel.massign].
    destruct (acquire E G s d TObject c) as [[r s1]| | |]; cbn [bind]; auto. rewrite <- named_keys. reflexivity.
  - intros rv s c d K U RD. apply (mkept_rmap rv) in K as (NE & NC & K). rewrite Forall_forall in H, K.
    pose proof (obj_acts (fun r s k x => melem i r c s k x) mgoal s c d kvs U RD) as OS.
    match type of OS with ?A -> _ => assert (HA : A) end.
    { intros y k a s0 I U0 R0. apply melem_acts; auto; apply (H _ I). }
    specialize (OS HA NC). clear HA. cbn [MarshalerModel.massign MarshalerSpec.mgoal]. destruct kvs; [congruence|exact OS].
  - intros rv s c d K U RD. cbn [MarshalerSpec.mkept] in K. apply conj_in in K. rewrite Forall_forall in H, K.
    cbn [MarshalerModel.massign MarshalerSpec.mgoal]. apply (arr_acts (fun r s j x => massign (negb i) x s (DIdx r j) c) mgoal s c); auto.
    intros y k a s0 I U0 R0. apply (proj1 (H _ I)); auto.
  - intros rv s c d K U RD. cbn [MarshalerSpec.mkept MarshalerModel.massign MarshalerSpec.mgoal] in *. destruct pd as [m|].
    + destruct rv; [apply (copy_acts s c); auto; apply K|]. apply (store_acts s c); [exact U|exact RD| |apply K].
      intros y Q. injection Q as <-. apply K.
    + rewrite K. apply (store_acts s c); [exact U|exact RD|intros m Q; discriminate Q|]. exists VNilP. split; [constructor|reflexivity].
  - intros rv s c d K U RD. apply (copy_acts s c); auto; apply K.
Qed.

(** The receiver itself becomes the container. *)
Lemma root_bred s l x : wf s -> live s l -> (5 <= l)%nat -> lent s -> ~ X l -> mkept false x -> boxed x ->
  exists s' t, massign false x s (DRoot l) (c_own (hp s l)) = Ok s' /\ bred (Reset s l t) l s' /\ shows (hp s') (Some l) (mgoal x).
Proof.
  intros W L L5 LE NX K B. set (c := c_own (hp s l)).
  assert (RU : forall t, fit (Reset s l t) c l /\ clean (hp (Reset s l t) l) t).
  { intros t. destruct (reset_usable s l t W L L5) as [A1 A2]. split; [|exact A2]. split; [exact A1|]. split; [|exact NX].
    intros z Z. destruct (LE z Z) as [B1 B2]. assert (RS : Reset s l t = set_cell s l (reset_cell (hp s l) t)) by (unfold Reset; rewrite not_shared by auto; auto).
    rewrite RS. split; [apply live_set_cell; auto|]. cbn [set_cell hp]. rewrite upd_other; [exact B2|]. intros ->. auto. }
  destruct (RU TObject) as [UO CO], (RU TArray) as [UA CA].
  destruct x as [g|p n x|x|p n|kvs|a|fs|i kvs|i a|pd|md]; try (destruct B; fail).
  - destruct K as [NC K]. apply conj_in in K. rewrite Forall_forall in K.
    destruct (keys_lay (fun s k x => massign false x s (DKey l k) c) mgoal (Reset s l TObject) c l kvs UO CO) as (s' & A); auto.
    { intros k y s0 I U0 R0. apply (proj1 (mmain_all y)); auto; apply (K _ I). }
    exists s', TObject. exact A.
  - cbn [MarshalerSpec.mkept] in K. apply conj_in in K. rewrite Forall_forall in K.
    destruct (list_lay (fun s i x => massign false x s (DIdx l i) c) mgoal (Reset s l TArray) c l a UA CA) as (s' & A).
    { intros k y s0 I U0 R0. apply (proj1 (mmain_all y)); auto. }
    exists s', TArray. exact A.
  - apply (mkept_struct false) in K as [NC K]. rewrite Forall_forall in K.
    destruct (keys_lay (fun s k (a : bool * bool * mval) => mfield l c s k (fst (fst a)) (snd (fst a)) (snd a))
      (fun a => mgoal (snd a)) (Reset s l TObject) c l (map mfld fs) UO CO) as (s' & A1 & A2 & A3); [|apply no_clash_mfld; exact NC|].
    { intros k a s0 I U0 R0. apply in_map_iff in I as (f & Q & I). apply (mfield_acts f); auto. apply mmain_all. }
    exists s', TObject. cbn [MarshalerSpec.mgoal]. rewrite mgoal_fields. split; [|auto]. rewrite <- A1. cbn [MarshalerModel.massign acquire bind].
    rewrite <- named_keys. reflexivity.
  - apply (mkept_rmap false) in K as (NE & NC & K). rewrite Forall_forall in K.
    destruct (keys_lay (fun s k x => melem i l c s k x) mgoal (Reset s l TObject) c l kvs UO CO) as (s' & A); auto.
    { intros k y s0 I U0 R0. apply melem_acts; auto; apply mmain_all. }
    exists s', TObject. destruct kvs; [congruence|]. exact A.
  - cbn [MarshalerSpec.mkept] in K. apply conj_in in K. rewrite Forall_forall in K.
    destruct (list_lay (fun s j x => massign (negb i) x s (DIdx l j) c) mgoal (Reset s l TArray) c l a UA CA) as (s' & A).
    { intros k y s0 I U0 R0. apply (proj1 (mmain_all y)); auto. }
    exists s', TArray. exact A.
Qed.
Lemma bred_effect s l t s' : wf s -> live s l -> (5 <= l)%nat -> bred (Reset s l t) l s' ->
  wf s' /\ (nc s <= nc s')%nat /\ (forall x, live s x -> x <> l -> hp s' x = hp s x) /\ (forall x, live s x -> live s' x) /\
  (forall x, reach (hp s') l x -> x = l \/ X x \/ (~ live s x /\ live s' x)).
Proof.
  intros W L L5 [W' H K]. assert (RS : Reset s l t = set_cell s l (reset_cell (hp s l) t)) by (unfold Reset; rewrite not_shared by auto; auto).
  assert (LV : forall x, live s x -> live (Reset s l t) x) by (intros x Z; rewrite RS; apply live_set_cell; auto).
  split; [exact W'|]. split; [|split; [|split]].
  - pose proof (hl_nc _ _ _ H) as Q. rewrite RS in Q. exact Q.
  - intros x Z Q. rewrite (hl_frame _ _ _ H) by auto. rewrite RS. cbn [set_cell hp]. apply upd_other; auto.
  - intros x Z. apply (hl_lives _ _ _ H); auto.
  - intros x Z. apply reach_cases in Z as [->|(y & Sy & Z)]; [auto|].
    destruct (K y Sy x Z) as [Q|(Q1 & Q2 & Q3)]; [auto|]. right. right. split; auto.
Qed.
End Run.

(** A method that calls [SetValue]. *)
Lemma writes_set_value g : root_kept E g -> writes (fun s x => SetValue E G s x g) (goal E g).
Proof.
  intros K s x W L L5 B. destruct B as (D & EX & _).
  destruct (set_root E G s x g W L L5 K) as (s' & Q & W' & SH & FR & LV & RE & _).
  { intros y _. destruct y; cbn; auto. rewrite D. discriminate. }
  assert (O : ok_loc N s x) by (split; [apply L|intros []]).
  destruct (tr_SetValue N N E G s x g s' W O Q) as (_ & _ & NC & _).
  exists s'. auto 8.
Qed.
End Thms.
