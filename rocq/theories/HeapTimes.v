(** Getters of times, durations and single-precision numbers. *)
From Verif Require Import Base Values Tactics HeapModel HeapSpec HeapBase HeapConf HeapGet ApiSpec HeapMap HeapCalls
  HeapObj HeapForce HeapClone HeapMono GetModel HeapTyped.

Section Times.
Variable E : env.
Variable T : tenv.
Variable G : nat -> nat.
Variable EO : env_ok E.

(** The getters read the type, the number and the text of a cell. *)
Lemma getters_by_content c c' : c_dt c = c_dt c' -> c_sv c = c_sv c' -> c_str c = c_str c' ->
  Float E T c = Float E T c' /\ DateTime E T c = DateTime E T c' /\ GoTime E T c = GoTime E T c' /\
  (forall d, fst (Duration E T c d) = fst (Duration E T c' d)) /\ fst (StringOf E c) = fst (StringOf E c').
Proof.
  intros H1 H2 H3. unfold Float, DateTime, GoTime, Duration, Double, Int, StringOf. rewrite H1, H2, H3.
  repeat split; intros; destruct (c_dt c'); reflexivity.
Qed.
(** What the getters return, by what the path leads to. *)
Lemma path_result s l paths q : fst (ValueByPath E s (Some l) paths) = q ->
  match q with
  | None => (forall d, fst (FloatByPath E T s (Some l) d paths) = d) /\ (forall d, fst (DateTimeByPath E T s (Some l) d paths) = d) /\
      (forall d, fst (GoTimeByPath E T s (Some l) d paths) = d) /\ (forall d, fst (DurationByPath E T s (Some l) d paths) = d)
  | Some m => (forall d, fst (FloatByPath E T s (Some l) d paths) = Float E T (hp s m)) /\
      (forall d, fst (DateTimeByPath E T s (Some l) d paths) = DateTime E T (hp s m)) /\
      (forall d, fst (GoTimeByPath E T s (Some l) d paths) = GoTime E T (hp s m)) /\
      (forall d, fst (DurationByPath E T s (Some l) d paths) = fst (Duration E T (hp s m) d))
  end.
Proof.
  unfold FloatByPath, DateTimeByPath, GoTimeByPath, DurationByPath. intros Q.
  destruct q as [m|].
  - destruct (path_cells E paths s l m) as (H1 & H2 & H3). unfold ValueByPath in *.
    destruct (path_loop E s l paths) as [q s1]. cbn [fst snd] in *. subst q.
    destruct (getters_by_content (hp s1 m) (hp s m) H1 H3 H2) as (A1 & A2 & A3 & A4 & _).
    repeat split; intros d; auto. rewrite <- A4. destruct (Duration E T (hp s1 m) d). reflexivity.
  - destruct (ValueByPath E s (Some l) paths) as [[m|] s1]; [discriminate|]. auto.
Qed.
Lemma times_by_path s l paths : all_distinct E s ->
  (walk E s l paths None ->
     (forall d, fst (FloatByPath E T s (Some l) d paths) = d) /\ (forall d, fst (DateTimeByPath E T s (Some l) d paths) = d) /\
     (forall d, fst (GoTimeByPath E T s (Some l) d paths) = d) /\ (forall d, fst (DurationByPath E T s (Some l) d paths) = d)) /\
  (forall m, walk E s l paths (Some m) ->
     (forall d, fst (FloatByPath E T s (Some l) d paths) = Float E T (hp s m)) /\
     (forall d, fst (DateTimeByPath E T s (Some l) d paths) = DateTime E T (hp s m)) /\
     (forall d, fst (GoTimeByPath E T s (Some l) d paths) = GoTime E T (hp s m)) /\
     (forall d, fst (DurationByPath E T s (Some l) d paths) = fst (Duration E T (hp s m) d))).
Proof.
  intros D. split.
  - intros W. apply (path_lookup_is_walk E G EO s l paths None D) in W. exact (path_result s l paths None W).
  - intros m W. apply (path_lookup_is_walk E G EO s l paths (Some m) D) in W. exact (path_result s l paths (Some m) W).
Qed.

Lemma key_time_back s l name t s' : target E s l name -> 0 <= x_delphi E t < 2^64 -> SetKeyTime E G s l name t = Ok s' ->
  (forall d, fst (GoTimeByPath E T s' (Some l) d [name]) = Some (x_totime E (x_delphi E t))) /\
  (forall d, fst (DateTimeByPath E T s' (Some l) d [name]) = x_delphi E t).
Proof.
  intros A B H. destruct (key_time E G EO T s l name t s' A B H) as (r & [V _] & R).
  destruct (path_result s' l [name] (Some r) V) as (_ & D & Go & _). inversion R.
  split; intros d; [rewrite Go|rewrite D]; auto.
Qed.
Lemma key_float_back s l name v s' : target E s l name -> 0 <= v < 2^32 -> SetKeyFloat E G s l name v = Ok s' ->
  forall d, fst (FloatByPath E T s' (Some l) d [name]) = v.
Proof.
  intros A B H d. destruct (key_float E G EO T s l name v s' A B H) as (r & [V _] & R & _).
  destruct (path_result s' l [name] (Some r) V) as (F & _). inversion R. rewrite F. auto.
Qed.
Lemma key_text_back s l name b s' : target E s l name -> SetKeyString E G s l name b = Ok s' ->
  (forall d, fst (GoTimeByPath E T s' (Some l) d [name]) = parse_time T b) /\
  (forall d, fst (DateTimeByPath E T s' (Some l) d [name]) =
     match parse_time T b with Some t => x_delphi E t | None => 13830554455654793216 end) /\
  (forall d, fst (DurationByPath E T s' (Some l) d [name]) = match t_duration T b with Some n => n | None => d end).
Proof.
  intros (Td & C & A) H. unfold SetKeyString in H. apply bind_Ok in H as ([r s1] & H1 & H2). injection H2 as <-.
  pose proof (put_any E G EO _ _ _ _ _ _ Td C A H1) as P.
  destruct (put_then E _ _ _ _ _ _ _ P (touch_set s1 r (w_str (hp s1 r) b))) as [HP FR]. destruct (get_hop E G EO _ _ _ _ HP) as (V & _).
  destruct (path_result _ l [name] (Some r) V) as (_ & D & Go & Du).
  assert (DT : c_dt (hp s1 r) = TString) by apply P.
  split; [|split]; intros d; [rewrite Go|rewrite D|rewrite Du]; cbn [set_cell hp]; rewrite upd_same;
    unfold GoTime, DateTime, Duration, StringOf; cbn [w_str c_dt c_str]; rewrite DT; reflexivity.
Qed.
(** [SetTime] makes the value a time unless it holds a double. *)
Lemma set_time_type s l t : (5 <= l)%nat ->
  c_dt (hp (SetTime E s l t) l) = (if vt_eqb (c_dt (hp s l)) TDouble then TDouble else TDateTime) /\
  fst (StringOf E (hp (SetTime E s l t) l)) =
    (if vt_eqb (c_dt (hp s l)) TDouble then x_fmt_f64 E (x_delphi E t) else x_fmt_time E (x_delphi E t)).
Proof.
  intros L. unfold SetTime, SetDelphiTime, is_dbl.
  destruct (c_dt (hp s l)) eqn:D;
    match goal with
    | |- context [vt_eqb ?a TDouble || vt_eqb ?a TDateTime] =>
        change (vt_eqb a TDouble || vt_eqb a TDateTime) with ltac:(let x := eval vm_compute in (vt_eqb a TDouble || vt_eqb a TDateTime) in exact x);
        change (vt_eqb a TDouble) with ltac:(let x := eval vm_compute in (vt_eqb a TDouble) in exact x)
    end; cbv iota; try rewrite (reset_5 s l TDateTime L); cbn [set_cell hp]; rewrite !upd_same; unfold StringOf; cbn [w_sv c_dt c_sv reset_cell];
    rewrite ?D; split; reflexivity.
Qed.
End Times.
