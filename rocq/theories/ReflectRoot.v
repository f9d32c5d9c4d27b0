(** [SetValue]: the value itself as target. *)
From Coq Require Import Permutation.
From Verif Require Import Base Values Tactics HeapModel MsgLoadModel ReflectModel ReflectInd HeapSpec MsgLoadSpec ReflectSpec
  HeapBase HeapConf HeapGet HeapCalls HeapObj HeapForce HeapTree HeapClone HeapMap HeapBuild HeapTyped ReflectThms ReflectPerm.

Section Root.
Variable E : env.
Variable G : nat -> nat.
Notation N := none_set.

(** Go values that become a container. *)
Definition box (g : goval) : option vtype :=
  match g with
  | GMap _ | GMapStr _ | GMapInt _ | GStruct _ | GRMap _ (_ :: _) => Some TObject
  | GList _ | GStrs _ | GRSlice _ _ => Some TArray
  | _ => None
  end.

Lemma reset_usable s l t : wf s -> live s l -> (5 <= l)%nat ->
  usable (Reset s l t) (c_own (hp s l)) l /\ clean (hp (Reset s l t) l) t.
Proof.
  intros W L L5. assert (O : ok_loc N s l) by (split; [apply L|intros []]).
  pose proof (tr_Reset N N s l t W O) as T. split.
  - split; [apply T|]. split; [exact (ok_cache_tr N N _ _ _ T (own_ok N N s l W O))|]. split; [|exact L5].
    unfold Reset. destruct (ReadOnly l); [exact L|apply live_set_cell; exact L].
  - unfold Reset. rewrite not_shared by exact L5. cbn [set_cell hp]. rewrite upd_same. apply clean_reset.
Qed.

Lemma field_does fs c r k a s : no_clash E (map name_of fs) -> Forall (field_ok E) fs -> In (k, a) (map fld fs) ->
  usable s c r -> ready E s (DKey r k) ->
  does (if snd (fst a) then if fst (fst a) then assign E G false (snd a) s (DKey r k) c else Ok s
        else match snd a with
          | GNilPtr _ => Panic
          | GSc _ y | GPtr (GSc _ y) => put_kind E G true s r k y c
          | GPtr x' => if fst (fst a) then assign E G false x' s (DKey r k) c else Ok s
          | _ => if fst (fst a) then assign E G false (snd a) s (DKey r k) c else Ok s
          end) s c (DKey r k)
       (if snd (fst a) then if fst (fst a) then tree E false (snd a) else None
        else match snd a with
          | GNilPtr _ => None
          | GSc _ y | GPtr (GSc _ y) => Some (sc_tree y)
          | GPtr x' => if fst (fst a) then tree E false x' else None
          | _ => if fst (fst a) then tree E false (snd a) else None
          end).
Proof.
  intros NC T I U R. rewrite Forall_forall in T. apply in_map_iff in I as ([[[k1 ex] ifc] x] & Q & I). injection Q as <- <-.
  pose proof (T _ I) as TF. destruct (main_all E G x) as [M1 M2]. cbn [field_ok fst snd] in *. unfold field_tame in TF.
  destruct ifc.
  - destruct ex; [apply (M1 false false); auto|reflexivity].
  - destruct x as [|n y|t|b|m|m|m|l|l|f1|i1 m|i1 l|g'|b1|]; try (destruct ex; [apply (M1 false false); auto|reflexivity]).
    + destruct TF as [TF NU]. apply put_kind_slot; auto.
    + destruct g' as [|n y|t|b|m|m|m|l|l|f1|i1 m|i1 l|g'|b1|]; try (destruct ex; [apply (M2 _ eq_refl false false); auto|reflexivity]).
      destruct TF as [TF NU]. apply put_kind_slot; auto.
    + destruct TF.
Qed.
Lemma elem_does ifc c r k a s : elem_tame E ifc a -> usable s c r -> ready E s (DKey r k) ->
  does (if ifc then assign E G false a s (DKey r k) c
        else match a with
          | GNilPtr _ => Panic
          | GSc _ y | GPtr (GSc _ y) => put_kind E G false s r k y c
          | GPtr x' => assign E G false x' s (DKey r k) c
          | _ => assign E G false a s (DKey r k) c
          end) s c (DKey r k)
       (if ifc then tree E false a
        else match a with
          | GNilPtr _ => None
          | GSc _ y | GPtr (GSc _ y) => Some (sc_tree y)
          | GPtr x' => tree E false x'
          | _ => tree E false a
          end).
Proof.
  intros TF U R. destruct (main_all E G a) as [M1 M2]. unfold elem_tame in TF.
  destruct ifc; [apply (M1 false false); auto|].
  destruct a as [|n y|t|b|m|m|m|l|l|f1|i1 m|i1 l|g'|b1|]; try (apply (M1 false false); auto; fail).
  - apply put_kind_slot; auto. discriminate.
  - destruct g' as [|n y|t|b|m|m|m|l|l|f1|i1 m|i1 l|g'|b1|]; try (apply (M2 _ eq_refl false false); auto; fail).
    apply put_kind_slot; auto. discriminate.
  - destruct TF.
Qed.

Lemma root_box s l g t : wf s -> live s l -> (5 <= l)%nat -> tame E false false g -> box g = Some t ->
  exists s' v, assign E G false g s (DRoot l) (c_own (hp s l)) = Ok s' /\ tree E false g = Some v /\
    grown (Reset s l t) (c_own (hp s l)) l s' /\ shows (hp s') (Some l) v.
Proof.
  intros W L L5 T B. destruct (reset_usable s l t W L L5) as [U CL]. set (c := c_own (hp s l)) in *. set (sB := Reset s l t) in *.
  assert (FIN : forall (A : res st) v, (exists s', A = Ok s' /\ grown sB c l s' /\ shows (hp s') (Some l) v) ->
    exists s' v0, A = Ok s' /\ Some v = Some v0 /\ grown sB c l s' /\ shows (hp s') (Some l) v0).
  { intros A v (s' & Q & GR & SH). exists s', v. auto. }
  destruct g as [|n y|tt|b|m|m|m|a|a|f1|i1 m|i1 a|g'|b1|]; cbn [box] in B; try discriminate.
  - injection B as <-. destruct T as [NC T]. apply conj_in in T. rewrite Forall_forall in T. cbn [assign acquire bind tree]. fold sB.
    apply FIN. apply (keys_loop E G); auto. intros k x s0 I U0 R0.
    apply (proj1 (main_all E G x) false false); auto; apply (T _ I).
  - injection B as <-. cbn [tame] in T. cbn [assign acquire bind tree]. fold sB.
    apply FIN. apply (keys_loop E G _ (fun b => Some (VString b))); auto. intros k x s0 I U0 R0. apply put_scalar_slot; cbn; auto.
  - injection B as <-. destruct T as [NC T]. rewrite Forall_forall in T. cbn [assign acquire bind tree]. fold sB.
    apply FIN. apply (keys_loop E G _ (fun n => Some (sc_tree (SInt n)))); auto. intros k x s0 I U0 R0.
    apply put_scalar_slot; auto; apply (T _ I).
  - injection B as <-. cbn [tame] in T. apply conj_in in T. rewrite Forall_forall in T. cbn [assign acquire bind tree]. fold sB.
    apply FIN. apply (list_loop E G); auto. intros k x s0 I U0 R0. apply (proj1 (main_all E G x) false true); auto.
  - injection B as <-. cbn [assign acquire bind tree]. fold sB.
    apply FIN. apply (list_loop E G _ (fun b => Some (VString b))); auto. intros k x s0 I U0 R0. apply put_scalar_slot; cbn; auto.
  - injection B as <-. apply tame_struct in T as [NC T]. cbn [assign acquire bind tree]. fold sB.
    apply FIN. rewrite fields_keys, fields_gather. apply (keys_loop E G); auto; [|apply no_clash_fld; auto].
    intros k x s0 I U0 R0. apply (field_does f1); auto.
  - destruct m as [|kv0 m0] eqn:QM; [discriminate|]. rewrite <- QM in *. injection B as <-. apply tame_rmap in T as [NC T].
    rewrite Forall_forall in T.
    assert (Q1 : assign E G false (GRMap i1 m) s (DRoot l) c = over_keys (fun s k x =>
            if i1 then assign E G false x s (DKey l k) c
            else match x with
              | GNilPtr _ => Panic
              | GSc _ y | GPtr (GSc _ y) => put_kind E G false s l k y c
              | GPtr x' => assign E G false x' s (DKey l k) c
              | _ => assign E G false x s (DKey l k) c
              end) m sB) by (rewrite QM; reflexivity).
    rewrite Q1. replace (tree E false (GRMap i1 m)) with (Some (obj_of (gather (fun x =>
          if i1 then tree E false x
          else match x with
               | GNilPtr _ => None
               | GSc _ y | GPtr (GSc _ y) => Some (sc_tree y)
               | GPtr x' => tree E false x'
               | _ => tree E false x
               end) m))) by (rewrite QM; reflexivity).
    apply FIN. apply (keys_loop E G); auto. intros k x s0 I U0 R0. apply elem_does; auto. apply (T _ I).
  - injection B as <-. cbn [tame] in T. apply conj_in in T. rewrite Forall_forall in T. cbn [assign acquire bind tree]. fold sB.
    apply FIN. apply (list_loop E G); auto. intros k x s0 I U0 R0. apply (proj1 (main_all E G x) (negb i1) true); auto.
Qed.

(** What follows for the cells. *)
Lemma grown_effect s l t s' : wf s -> live s l -> (5 <= l)%nat -> grown (Reset s l t) (c_own (hp s l)) l s' ->
  wf s' /\ (forall x, live s x -> x <> l -> hp s' x = hp s x) /\ (forall x, live s x -> live s' x) /\
  (forall x, reach (hp s') l x -> x = l \/ (x < 5)%nat \/ (~ live s x /\ live s' x)) /\ treelike (hp s') l.
Proof.
  intros W L L5 GR. pose proof GR as [W' F K B]. assert (RS : Reset s l t = set_cell s l (reset_cell (hp s l) t)) by (unfold Reset; rewrite not_shared by auto; auto).
  assert (LV : forall x, live s x -> live (Reset s l t) x) by (intros x X; rewrite RS; apply live_set_cell; auto).
  split; [exact W'|]. split; [|split; [|split]].
  - intros x X Q. rewrite (fl_frame _ _ _ _ F) by auto. rewrite RS. cbn [set_cell hp]. apply upd_other; auto.
  - intros x X. apply (fl_lives _ _ _ _ F); auto.
  - intros x X. apply reach_cases in X as [->|(y & Sy & X)]; [auto|].
    destruct (kd_new _ _ _ _ _ (K y Sy) x X) as [Q|(Q1 & Q2 & Q3)]; [auto|]. right. right. split; auto.
  - apply (grown_here _ _ _ _ (LV l L) L5 GR).
Qed.

(** Scalars. *)
(** [s'] is [s] with a leaf in [l] that reads as [v]. *)
Record leafed (s : st) (l : nat) (v : value) (s' : st) : Prop := {
  lf_frame : forall x, x <> l -> hp s' x = hp s x;
  lf_lives : forall x, live s x -> live s' x;
  lf_shows : shows (hp s') (Some l) v;
  lf_leaf : forall y, ~ sees (hp s' l) y }.
Lemma leafed_set s l s1 nc w v : (s1 = s \/ exists c0, s1 = set_cell s l c0) -> rep (fun _ => nc) (Some l) w -> low w = v ->
  c_dt nc <> TObject -> c_dt nc <> TArray -> leafed s l v (set_cell s1 l nc).
Proof.
  intros Q R LW D1 D2.
  assert (NS : forall y, ~ sees nc y) by (intros y; unfold sees; destruct (c_dt nc); auto).
  constructor.
  - intros x X. cbn [set_cell hp]. rewrite upd_other by auto. destruct Q as [->|[c0 ->]]; [reflexivity|]. cbn [set_cell hp]. apply upd_other; auto.
  - intros x X. apply live_set_cell. destruct Q as [->|[c0 ->]]; [exact X|apply live_set_cell; exact X].
  - eapply leaf_shows; eauto.
  - cbn [set_cell hp]. rewrite upd_same. exact NS.
Qed.
Lemma ensure_shape s l t : (5 <= l)%nat -> (ensure s l t = s \/ exists c0, ensure s l t = set_cell s l c0) /\ c_dt (hp (ensure s l t) l) = t /\
  c_ext (hp (ensure s l t) l) = (if vt_eqb (c_dt (hp s l)) t then c_ext (hp s l) else 0).
Proof.
  intros L5. unfold ensure. destruct (vt_eqb (c_dt (hp s l)) t) eqn:D.
  - apply HeapBase.vt_eqb_eq in D. auto.
  - unfold Reset. rewrite not_shared by auto. split; [right; eexists; reflexivity|]. cbn [set_cell hp]. rewrite upd_same.
    rewrite dt_reset, ext_reset. auto.
Qed.
Lemma root_scalar s l x c : (5 <= l)%nat -> in_type x -> root_fit s l x ->
  exists s', put_scalar E G s (DRoot l) x c = Ok s' /\ leafed s l (sc_tree x) s'.
Proof.
  intros L5 T F. cbn [put_scalar]. eexists. split; [reflexivity|].
  destruct x as [n|n|b|b|v|v]; cbn [sc_tree root_fit in_type] in *.
  1,2: unfold SetInt; destruct (ensure_shape s l TInt L5) as (SH & D & X); cbv zeta;
    (eapply leafed_set; [exact SH|apply rep_int; exact D| |cbn; rewrite D; discriminate|cbn; rewrite D; discriminate]);
    cbn [low w_sv c_ext c_sv]; rewrite X; destruct (vt_eqb (c_dt (hp s l)) TInt) eqn:Q; [|reflexivity]; apply HeapBase.vt_eqb_eq in Q;
    rewrite (F Q); reflexivity.
  - unfold SetString. destruct (ensure_shape s l TString L5) as (SH & D & X). cbv zeta.
    eapply leafed_set; [exact SH|apply rep_str; exact D|reflexivity|cbn; rewrite D; discriminate|cbn; rewrite D; discriminate].
  - unfold SetBool. rewrite not_shared by auto. unfold Reset. rewrite not_shared by auto.
    apply (leafed_set s l s _ (if b then VTrue else VFalse)); auto.
    + destruct b; constructor; reflexivity.
    + destruct b; reflexivity.
    + rewrite dt_reset. destruct b; discriminate.
    + rewrite dt_reset. destruct b; discriminate.
  - unfold SetFloat. rewrite not_shared by auto. destruct (ensure_shape s l TFloat L5) as (SH & D & X). cbv zeta.
    eapply leafed_set; [exact SH|apply rep_flt; exact D|apply low_float; exact T|cbn; rewrite D; discriminate|cbn; rewrite D; discriminate].
  - unfold SetDouble. rewrite not_shared by auto. cbv zeta.
    set (s1 := if is_dbl (c_dt (hp s l)) then s else Reset s l TDouble).
    assert (SH : (s1 = s \/ exists c0, s1 = set_cell s l c0) /\ c_dt (hp s1 l) = TDouble).
    { unfold s1. destruct (is_dbl (c_dt (hp s l))) eqn:D.
      - split; [auto|]. unfold is_dbl in D. apply orb_true_iff in D as [D|D]; apply HeapBase.vt_eqb_eq in D; [exact D|contradiction].
      - unfold Reset. rewrite not_shared by auto. split; [right; eexists; reflexivity|]. cbn [set_cell hp]. rewrite upd_same. apply dt_reset. }
    destruct SH as [SH D]. eapply leafed_set; [exact SH|apply rep_dbl; exact D|reflexivity|cbn; rewrite D; discriminate|cbn; rewrite D; discriminate].
Qed.

(** [SetValue] keeps the whole Go value. *)
Lemma set_root s l g : wf s -> live s l -> (5 <= l)%nat -> root_kept E g ->
  (forall x, (g = GSc false x \/ g = GPtr (GSc false x)) -> root_fit s l x) ->
  exists s', SetValue E G s l g = Ok s' /\ wf s' /\ shows (hp s') (Some l) (goal E g) /\
    (forall x, live s x -> x <> l -> hp s' x = hp s x) /\ (forall x, live s x -> live s' x) /\
    (forall x, reach (hp s') l x -> x = l \/ (x < 5)%nat \/ (~ live s x /\ live s' x)) /\ treelike (hp s') l.
Proof.
  intros W L L5 K RF. assert (O : ok_loc N s l) by (split; [apply L|intros []]).
  assert (TV : forall s', SetValue E G s l g = Ok s' -> wf s').
  { intros s' H. apply (tr_SetValue N N E G s l g s' W O H). }
  unfold SetValue in *. rewrite not_shared in * by auto.
  assert (BX : forall g0 t, kept E false g0 -> box g0 = Some t ->
     exists s', assign E G false g0 s (DRoot l) (c_own (hp s l)) = Ok s' /\ wf s' /\ shows (hp s') (Some l) (goal E g0) /\
    (forall x, live s x -> x <> l -> hp s' x = hp s x) /\ (forall x, live s x -> live s' x) /\
    (forall x, reach (hp s') l x -> x = l \/ (x < 5)%nat \/ (~ live s x /\ live s' x)) /\ treelike (hp s') l).
  { intros g0 t KG B. destruct (proj1 (kept_good E g0) false false KG) as [T TR].
    destruct (root_box s l g0 t W L L5 T B) as (s' & v & Q & Q1 & GR & SH). rewrite TR in Q1. injection Q1 as <-.
    exists s'. split; [exact Q|]. destruct (grown_effect s l t s' W L L5 GR) as (A1 & A2 & A3 & A4 & A5). auto 7. }
  assert (SC : forall x, sc_kept x -> root_fit s l x ->
     exists s', put_scalar E G s (DRoot l) x (c_own (hp s l)) = Ok s' /\ shows (hp s') (Some l) (sc_goal x) /\
    (forall x, live s x -> x <> l -> hp s' x = hp s x) /\ (forall x, live s x -> live s' x) /\
    (forall x, reach (hp s') l x -> x = l \/ (x < 5)%nat \/ (~ live s x /\ live s' x)) /\ treelike (hp s') l).
  { intros x KX F. destruct (kept_type x KX) as [T Q]. destruct (root_scalar s l x (c_own (hp s l)) L5 T F) as (s' & Q' & LF).
    rewrite Q in LF. exists s'. split; [exact Q'|]. split; [apply LF|]. split; [intros; apply LF; auto|]. split; [apply LF|].
    split; [|apply treelike_leaf; apply LF]. intros y Y. left. apply reach_cases in Y as [->|(z & Z & _)]; [reflexivity|destruct (lf_leaf _ _ _ _ LF z Z)]. }
  destruct g as [|n y|t|b|m|m|m|a|a|f1|i1 m|i1 a|g'|b1|]; cbn [root_kept] in K; try (destruct K; fail);
    try (eapply BX; [exact K|reflexivity]).
  - destruct K as [-> K]. cbn [assign]. destruct (SC y K (RF y (or_introl eq_refl))) as (s' & Q & A).
    exists s'. split; [exact Q|]. split; [apply TV; exact Q|exact A].
  - destruct m as [|kv m]; [destruct K as [K _]; congruence|]. eapply BX; [exact K|reflexivity].
  - destruct g' as [|n y|t|b|m|m|m|a|a|f1|i1 m|i1 a|g'|b1|]; try (destruct K; fail); cbn [kept] in K;
      try (match goal with |- context [assign E G false (GPtr ?g0)] => exact (BX g0 _ K eq_refl) end).
    + destruct n; [destruct y; destruct K; discriminate|].
      assert (KY : sc_kept y) by (destruct y; try (destruct K; fail); apply K).
      destruct (SC y KY (RF y (or_intror eq_refl))) as (s' & Q & A).
      assert (QA : assign E G false (GPtr (GSc false y)) s (DRoot l) (c_own (hp s l)) = Ok s').
      { destruct y; try (destruct K; fail); exact Q. }
      exists s'. split; [exact QA|]. split; [apply TV; exact QA|exact A].
    + destruct m as [|kv m]; [destruct K as [K _]; congruence|]. apply (BX (GRMap i1 (kv :: m)) TObject); [exact K|reflexivity].
  - discriminate K.
Qed.
End Root.
