(** Reading calls (lookups, [String], [Equal], the encoders) only unescape. *)
From Verif Require Import Base Values Tactics MsgPackModel BsonModel JsonModel HeapModel HeapSpec HeapBase HeapConf HeapGet HeapClone HeapEqual EncodeModel EncodeThms.

(** What a value reads as: escapes in keys and strings resolved. *)
Fixpoint read_out (E : env) (v : value) : value :=
  match v with
  | VObject u kvs => VObject true (map (fun kv => (if u then fst kv else x_unescape E (fst kv), read_out E (snd kv))) kvs)
  | VArray l => VArray (map (read_out E) l)
  | VRawString x => VString (x_unescape E x)
  | _ => v
  end.
(** The calls that only read. *)
Definition reading (o : op) : Prop :=
  match o with
  | OLookup _ _ | OPath _ _ | OItems _ _ | OByIndex _ _ | OString _ | OEqual _ _ | OToJson _ _ _ _ | OToBson _ => True
  | _ => False
  end.
(** Everything reads in [s'] as it did in [s]. *)
Definition same_reading (E : env) (s s' : st) : Prop :=
  forall q w, rep (hp s) q w -> exists w', rep (hp s') q w' /\ read_out E w' = read_out E w.

Section Read.
Variable E : env.
Lemma nf_read_out v : nf E true true v = read_out E v.
Proof.
  induction v using value_ind'; try reflexivity; cbn [nf read_out].
  - unfold uf, kf. f_equal. induction H as [|kv kvs H1 H2 IH]; cbn [map]; [reflexivity|]. rewrite H1, IH. reflexivity.
  - f_equal. induction H as [|x l H1 H2 IH]; cbn [map]; [reflexivity|]. rewrite H1, IH. reflexivity.
Qed.
Lemma read_out_nf ks rs v : read_out E (nf E ks rs v) = read_out E v.
Proof.
  induction v using value_ind'; try reflexivity; cbn [nf read_out].
  - f_equal. rewrite map_map. cbn [fst snd]. induction H as [|kv kvs H1 H2 IH]; cbn [map]; [reflexivity|]. rewrite H1, IH. f_equal. f_equal.
    unfold uf, kf. destruct ks; [reflexivity|destruct u; reflexivity].
  - f_equal. rewrite map_map. induction H as [|x l H1 H2 IH]; cbn [map]; [reflexivity|]. rewrite H1, IH. reflexivity.
  - destruct rs; reflexivity.
Qed.
Lemma nf_eq_read ks rs v w : nf E ks rs v = nf E ks rs w -> read_out E v = read_out E w.
Proof. intros Q. rewrite <- (read_out_nf ks rs v), <- (read_out_nf ks rs w), Q. reflexivity. Qed.
Lemma settles_reading ks rs s s' : settles E ks rs (hp s) (hp s') -> same_reading E s s'.
Proof.
  intros L q w R. destruct (rep_settles E ks rs _ _ w L q R) as (w' & R' & Q). exists w'. split; [exact R'|]. eapply nf_eq_read; eauto.
Qed.

Notation calm := (calm E true true).
Notation refl := (calm_refl E true true).
Notation trans := (calm_trans E true true).
Lemma w_obj_same c : w_obj c (c_unesc c) (c_kvs c) (c_spare c) = c.
Proof. destruct c; reflexivity. Qed.
Lemma calm_obj_index s l name r s' : c_dt (hp s l) = TObject -> obj_index E s l name = (r, s') -> calm s s'.
Proof.
  intros D H. unfold obj_index, index_by_name in H.
  pose proof (calm_obj E true true s l eq_refl D) as C1. pose proof (calm_noop E true true s l) as C2.
  unfold unescape_cell in C1. destruct (negb (c_unesc (hp s l)) && no_backslash name).
  - destruct (find_key E (c_kvs (hp s l)) name); injection H as <- <-; [rewrite w_obj_same; exact C2|exact C1].
  - injection H as <- <-. exact C1.
Qed.
Lemma calm_ValueByName s l name r s' : ValueByName E s l name = (r, s') -> calm s s'.
Proof.
  unfold ValueByName. destruct (c_dt (hp s l)) eqn:D; try (intros H; injection H as _ <-; apply refl).
  destruct (obj_index E s l name) as [i s1] eqn:Q. intros H. injection H as _ <-. eapply calm_obj_index; eauto.
Qed.
Lemma calm_path ps : forall s l r s', path_loop E s l ps = (r, s') -> calm s s'.
Proof.
  induction ps as [|k ps IH]; intros s l r s' H; cbn [path_loop] in H; [injection H as _ <-; apply refl|].
  destruct (ValueByName E s l k) as [[l'|] s1] eqn:Q; apply calm_ValueByName in Q; [|injection H as _ <-; exact Q].
  eapply trans; [exact Q|]. eapply IH; eauto.
Qed.
Lemma calm_Items s l i : calm s (snd (Items E s l i)).
Proof.
  unfold Items. destruct (c_dt (hp s l)) eqn:D; try apply refl.
  destruct (_ && _); [|apply refl]. apply (calm_obj E true true s l eq_refl D).
Qed.
Lemma calm_String s l : calm s (set_cell s l (snd (StringOf E (hp s l)))).
Proof.
  destruct (c_dt (hp s l)) eqn:D; try (apply calm_str; auto; fail);
    unfold StringOf; rewrite D; cbn [snd]; apply calm_noop.
Qed.
Lemma calm_Equal_all fuel :
  (forall s p q b s', Equal E fuel s p q = Ok (b, s') -> calm s s') /\
  (forall s l m i b s', equal_kvs E fuel s l m i = Ok (b, s') -> calm s s') /\
  (forall s l m i b s', equal_arr E fuel s l m i = Ok (b, s') -> calm s s').
Proof.
  induction fuel as [|f (IC & IK & IA)].
  { repeat split; intros; discriminate. }
  split; [|split].
  - intros s p q b s' H. rewrite Equal_S in H.
    destruct p as [l|], q as [m|]; try (injection H as <- <-; apply refl). cbv zeta in H.
    destruct (negb (vt_eqb (c_dt (hp s l)) (c_dt (hp s m)))) eqn:NE.
    + destruct (_ || _).
      * pose proof (calm_String s l) as T1.
        destruct (StringOf E (hp s l)) as [x a']. cbn [snd] in T1.
        set (s1 := set_cell s l a') in *. pose proof (calm_String s1 m) as T2.
        destruct (StringOf E (hp s1 m)) as [y b']. cbn [snd] in T2.
        apply ok_pair in H as [_ <-]. eapply trans; eauto.
      * destruct (_ && _); apply ok_pair in H as [_ <-]; apply refl.
    + destruct (c_dt (hp s l)) eqn:D; try (apply ok_pair in H as [_ <-]; apply refl).
      * destruct (negb (zlen _ =? _)); [apply ok_pair in H as [_ <-]; apply refl|].
        pose proof (calm_obj E true true s l eq_refl D) as T1. set (s1 := set_cell s l _) in *.
        assert (D1 : c_dt (hp s1 m) = TObject).
        { apply Bool.negb_false_iff in NE. apply vt_eqb_eq in NE.
          unfold s1. cbn [set_cell hp]. destruct (Nat.eq_dec m l) as [->|Q]; [rewrite upd_same; exact D|rewrite upd_other by auto; auto]. }
        pose proof (calm_obj E true true s1 m eq_refl D1) as T2.
        apply IK in H. eapply trans; [exact T1|]. eapply trans; [exact T2|exact H].
      * apply IA in H; auto.
  - intros s l m i b s' H. rewrite equal_kvs_S in H.
    destruct (nth_error (c_kvs (hp s l)) i) as [[k p]|] eqn:N1; [|apply ok_pair in H as [_ <-]; apply refl].
    destruct (nth_error (c_kvs (hp s m)) i) as [[k' q]|] eqn:N2; [|discriminate].
    destruct (negb _); [apply ok_pair in H as [_ <-]; apply refl|].
    apply bind_ok in H as ((r & s1) & H1 & H). apply IC in H1.
    destruct r; [|apply ok_pair in H as [_ <-]; auto]. eapply trans; [exact H1|]. eapply IK; eauto.
  - intros s l m i b s' H. rewrite equal_arr_S in H.
    destruct (nth_error (c_arr (hp s l)) i) as [p|] eqn:N1; [|apply ok_pair in H as [_ <-]; apply refl].
    destruct (nth_error (c_arr (hp s m)) i) as [q|] eqn:N2; [|discriminate].
    apply bind_ok in H as ((r & s1) & H1 & H). apply IC in H1.
    destruct r; [|apply ok_pair in H as [_ <-]; auto]. eapply trans; [exact H1|]. eapply IA; eauto.
Qed.
Lemma calm_json_all style escDate fmt fuel :
  (forall s level p dst d s', h_json E style escDate fmt fuel s level p dst = Ok (d, s') -> calm s s') /\
  (forall s level l i dst d s', c_dt (hp s l) = TObject -> json_kvs E style escDate fmt fuel s level l i dst = Ok (d, s') -> calm s s') /\
  (forall s level l i dst d s', json_arr E style escDate fmt fuel s level l i dst = Ok (d, s') -> calm s s').
Proof.
  induction fuel as [|f (IC & IK & IA)].
  { repeat split; intros; discriminate. }
  split; [|split].
  - intros s level p dst d s' H. rewrite h_json_S in H. destruct p as [l|]; [|discriminate].
    destruct (c_dt (hp s l)) eqn:D; apply bind_ok in H as (x & H1 & H);
      try (apply ok_pair in H as [_ <-]; apply refl; fail);
      destruct x as [d1 s1]; apply ok_pair in H as [_ <-]; [eapply IK|eapply IA]; eauto.
  - intros s level l i dst d s' D H. rewrite json_kvs_S in H.
    destruct (nth_error (c_kvs (hp s l)) i) as [kp|] eqn:N1; [|apply ok_pair in H as [_ <-]; apply refl].
    assert (T0 : calm s (touch E style s l)).
    { unfold touch. destruct style; [destruct (c_unesc (hp s l)); [apply refl|apply calm_obj; auto]|apply refl|apply refl]. }
    set (s0 := touch E style s l) in *. destruct (nth_error (c_kvs (hp s0 l)) i) as [[k p]|] eqn:N2; [|discriminate].
    apply bind_ok in H as ((d1 & s1) & H1 & H). apply IC in H1. apply IK in H.
    + eapply trans; [exact T0|]. eapply trans; [exact H1|exact H].
    + assert (K : forall a b, calm a b -> c_dt (hp a l) = TObject -> c_dt (hp b l) = TObject).
      { intros a b [L _] DA. destruct (L l) as [->|[-> _]]; [auto|]. unfold settled_cell. rewrite DA. exact DA. }
      apply (K s0 s1 H1). apply (K s s0 T0 D).
  - intros s level l i dst d s' H. rewrite json_arr_S in H.
    destruct (nth_error (c_arr (hp s l)) i) as [p|] eqn:N1; [|apply ok_pair in H as [_ <-]; apply refl].
    apply bind_ok in H as ((d1 & s1) & H1 & H). apply IA in H. eapply trans; [|exact H].
    destruct p as [m|]; [eapply IC; exact H1|apply ok_pair in H1 as [_ <-]; apply refl].
Qed.
Lemma calm_bson_all fuel :
  (forall s l dst d s', h_ToBson E fuel s l dst = Ok (d, s') -> calm s s') /\
  (forall s l i dst d s', bson_kvs E fuel s l i dst = Ok (d, s') -> calm s s') /\
  (forall s l i dst d s', bson_arr E fuel s l i dst = Ok (d, s') -> calm s s').
Proof.
  induction fuel as [|f (IC & IK & IA)].
  { repeat split; intros; discriminate. }
  split; [|split].
  - intros s l dst d s' H. rewrite h_bson_S in H.
    assert (TS : forall str c, StringOf E (hp s l) = (str, c) -> calm s (set_cell s l c)).
    { intros str c Q. pose proof (calm_String s l) as T. rewrite Q in T. exact T. }
    destruct (c_dt (hp s l)) eqn:D;
      try (destruct (StringOf E (hp s l)) as [str c]; apply ok_pair in H as [_ <-]; eapply TS; reflexivity);
      apply bind_ok in H as (x & H1 & H);
      try (apply ok_pair in H as [_ <-]; apply refl; fail);
      destruct x as [d1 s1]; apply ok_pair in H as [_ <-].
    + apply IK in H1. eapply trans; [|exact H1]. apply calm_obj; auto.
    + eapply IA; eauto.
  - intros s l i dst d s' H. rewrite bson_kvs_S in H.
    destruct (nth_error (c_kvs (hp s l)) i) as [[k p]|] eqn:N1; [|apply ok_pair in H as [_ <-]; apply refl].
    apply bind_ok in H as ((d1 & s1) & H1 & H). apply IK in H. eapply trans; [|exact H].
    destruct p as [m|]; [eapply IC; exact H1|apply ok_pair in H1 as [_ <-]; apply refl].
  - intros s l i dst d s' H. rewrite bson_arr_S in H.
    destruct (nth_error (c_arr (hp s l)) i) as [p|] eqn:N1; [|apply ok_pair in H as [_ <-]; apply refl].
    apply bind_ok in H as ((d1 & s1) & H1 & H). apply IA in H. eapply trans; [|exact H].
    destruct p as [m|]; [eapply IC; exact H1|apply ok_pair in H1 as [_ <-]; apply refl].
Qed.
Lemma calm_run G fuel s o r s' : reading o -> run E G fuel s o = Ok (r, s') -> calm s s'.
Proof.
  intros R H. destruct o; try contradiction; cbn [run] in H.
  - injection H as H. destruct (ValueByName E s l name) as [x s1] eqn:Q. apply calm_ValueByName in Q. injection H as _ <-. exact Q.
  - injection H as H. unfold ValueByPath in H. destruct p as [l|]; [|injection H as _ <-; apply refl].
    destruct (path_loop E s l paths) as [x s1] eqn:Q. apply calm_path in Q. injection H as _ <-. exact Q.
  - injection H as _ <-. apply calm_Items.
  - injection H as _ <-. apply refl.
  - unfold ret0 in H. injection H as _ <-. apply calm_String.
  - apply bind_ok in H as ((b & s1) & H1 & H). unfold ret0 in H. injection H as _ <-. apply (proj1 (calm_Equal_all fuel)) in H1; exact H1.
  - apply bind_ok in H as ((b & s1) & H1 & H). unfold ret0 in H. injection H as _ <-. apply (proj1 (calm_json_all style escDate fmt fuel)) in H1; exact H1.
  - apply bind_ok in H as ((b & s1) & H1 & H). unfold ret0 in H. injection H as _ <-.
    unfold h_Value2Bson in H1. destruct p as [l|]; [|discriminate].
    destruct (c_dt (hp s l)); try discriminate; apply (proj1 (calm_bson_all fuel)) in H1; exact H1.
Qed.
Lemma calm_runs G P s os s' : Forall reading os -> runs E G P s os s' -> calm s s'.
Proof.
  intros F R. induction R as [s|fuel s o r s1 os s2 _ H1 R IH]; [apply refl|].
  inversion F; subst. eapply trans; [eapply calm_run; eauto|auto].
Qed.

(** A graph without raw strings and escaped keys is not changed at all. *)
Lemma settled_rep h h' v : settles E true true h h' -> read_out E v = v -> forall p, rep h p v -> rep h' p v.
Proof.
  intros L. induction v using value_ind'; intros RO p R.
  2:{ cbn [read_out] in RO. injection RO as U RO. subst u.
    apply rep_obj_inv in R as (l & -> & D & U & F).
    assert (Q : h' l = h l).
    { destruct (L l) as [Q|[Q _]]; [exact Q|]. rewrite Q. unfold settled_cell. rewrite D. apply unescape_done. auto. }
    apply rep_obj_intro; rewrite Q; auto. clear D U Q. revert RO.
    induction F as [|a b la lb [K R] F IH]; intros RO; constructor; inversion H; subst; cbn [map] in RO; injection RO as Q1 Q2; auto.
    split; [auto|]. apply H2; auto. destruct b; cbn in *. congruence. }
  2:{ cbn [read_out] in RO. injection RO as RO.
    apply rep_arr_inv in R as (l0 & -> & D & F). pose proof (settles_arr E true true h h' l0 L D) as Q.
    constructor; rewrite Q; auto. clear D Q. revert RO.
    induction F as [|a b la lb R F IH]; intros RO; constructor; inversion H; subst; cbn [map] in RO; injection RO as Q1 Q2; auto. }
  3:{ discriminate. }
  all: inversion R as [| | | l Q| l Q| l Q| l Q| l Q| l Q| l Q| l Q| l Q| l Q| l Q| l Q| l Q]; subst.
  1: constructor.
  all: assert (HL : h' l = h l) by (destruct (L l) as [Q'|[_ [[_ Q']|[_ Q']]]]; [exact Q'|congruence|congruence]);
    rewrite <- ?HL; constructor; congruence.
Qed.
End Read.
