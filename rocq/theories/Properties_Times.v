(** Property C82: getters of times, durations and single-precision numbers.  Each theorem is followed by
    what it assumes and by a concrete case. *)
From Coq Require Import String.
From Verif Require Import Base Values Tactics Env0 HeapModel HeapSpec HeapBase HeapConf HeapGet
  ApiSpec HeapMap HeapCalls HeapObj HeapForce HeapMono GetModel HeapTyped HeapTimes Properties_Map Properties_Heap
  Properties_Clone Properties_Merge Properties_Get.

(** The getters by path return the default exactly when some step is missing, and otherwise what the
    getter of the value found says. *)
Theorem C82_by_path : forall E T s l paths, env_ok E -> all_distinct E s ->
  (walk E s l paths None ->
     (forall d, fst (FloatByPath E T s (Some l) d paths) = d) /\ (forall d, fst (DateTimeByPath E T s (Some l) d paths) = d) /\
     (forall d, fst (GoTimeByPath E T s (Some l) d paths) = d) /\ (forall d, fst (DurationByPath E T s (Some l) d paths) = d)) /\
  (forall m, walk E s l paths (Some m) ->
     (forall d, fst (FloatByPath E T s (Some l) d paths) = Float E T (hp s m)) /\
     (forall d, fst (DateTimeByPath E T s (Some l) d paths) = DateTime E T (hp s m)) /\
     (forall d, fst (GoTimeByPath E T s (Some l) d paths) = GoTime E T (hp s m)) /\
     (forall d, fst (DurationByPath E T s (Some l) d paths) = fst (Duration E T (hp s m) d))).
Proof. intros E T s l paths EO. exact (times_by_path E T (fun n => n) EO s l paths). Qed.
Print Assumptions C82_by_path.
Example C82_by_path_nonvacuous : all_distinct e1 nested /\ walk e1 nested 5 [bs "A/"; bs "0"] (Some loc_true) /\
  fst (FloatByPath e1 t0 nested (Some 5%nat) 0 [bs "A/"; bs "0"]) = 1065353216.
Proof.
  split; [apply C32_nonvacuous|]. split; [|vm_compute; reflexivity].
  eapply (walk_key e1 nested 5 _ (bs "a/") 6); [reflexivity|left; reflexivity|reflexivity|].
  apply (walk_elem e1 nested 6 (bs "0") 0 [] [Some 7%nat] loc_true []); try reflexivity. constructor.
Qed.

(** They change what the lookup of the path changes, and [DurationByPath] at most the text it reads. *)
Theorem C82_effect : forall E T s p paths,
  (forall d, snd (FloatByPath E T s p d paths) = snd (ValueByPath E s p paths)) /\
  (forall d, snd (DateTimeByPath E T s p d paths) = snd (ValueByPath E s p paths)) /\
  (forall d, snd (GoTimeByPath E T s p d paths) = snd (ValueByPath E s p paths)) /\
  (forall d, let s1 := snd (ValueByPath E s p paths) in let s2 := snd (DurationByPath E T s p d paths) in
     (forall x, fst (ValueByPath E s p paths) <> Some x -> hp s2 x = hp s1 x) /\
     (forall x, fst (ValueByPath E s p paths) = Some x -> hp s2 x = hp s1 x \/ hp s2 x = snd (StringOf E (hp s1 x))) /\
     nx s2 = nx s1 /\ cs s2 = cs s1 /\ nc s2 = nc s1 /\ pl s2 = pl s1).
Proof.
  intros E T s p paths. unfold FloatByPath, DateTimeByPath, GoTimeByPath, DurationByPath.
  destruct (ValueByPath E s p paths) as [r s1]. cbn [fst snd]. split; [reflexivity|]. split; [reflexivity|]. split; [reflexivity|].
  intros d. cbv zeta. destruct r as [l|]; [|cbn [snd]; repeat split; auto].
  destruct (Duration E T (hp s1 l) d) as [x c] eqn:Q. cbn [snd set_cell hp nx cs nc pl]. repeat split; auto.
  - intros y Y. apply HeapBase.upd_other. congruence.
  - intros y Y. injection Y as <-. rewrite HeapBase.upd_same. unfold Duration in Q.
    destruct (c_dt (hp s1 l)); try (injection Q as _ <-; left; reflexivity);
      (destruct (StringOf E (hp s1 l)) as [b c'] eqn:W; injection Q as _ <-; right; reflexivity).
Qed.
Print Assumptions C82_effect.

(** What a keyed setter stored comes back through them. *)
Theorem C82_time_back : forall E T G s l name t s', env_ok E -> target E s l name -> 0 <= x_delphi E t < 2^64 ->
  SetKeyTime E G s l name t = Ok s' ->
  (forall d, fst (GoTimeByPath E T s' (Some l) d [name]) = Some (x_totime E (x_delphi E t))) /\
  (forall d, fst (DateTimeByPath E T s' (Some l) d [name]) = x_delphi E t).
Proof. intros E T G s l name t s' EO. exact (key_time_back E T G EO s l name t s'). Qed.
Print Assumptions C82_time_back.
Theorem C82_float_back : forall E T G s l name v s', env_ok E -> target E s l name -> 0 <= v < 2^32 ->
  SetKeyFloat E G s l name v = Ok s' -> forall d, fst (FloatByPath E T s' (Some l) d [name]) = v.
Proof. intros E T G s l name v s' EO. exact (key_float_back E T G EO s l name v s'). Qed.
Print Assumptions C82_float_back.
(** A text comes back as the time or the duration it spells.  13830554455654793216 are the bits of -1. *)
Theorem C82_text_back : forall E T G s l name b s', env_ok E -> target E s l name -> SetKeyString E G s l name b = Ok s' ->
  (forall d, fst (GoTimeByPath E T s' (Some l) d [name]) = parse_time T b) /\
  (forall d, fst (DateTimeByPath E T s' (Some l) d [name]) =
     match parse_time T b with Some t => x_delphi E t | None => 13830554455654793216 end) /\
  (forall d, fst (DurationByPath E T s' (Some l) d [name]) = match t_duration T b with Some n => n | None => d end).
Proof. intros E T G s l name b s' EO. exact (key_text_back E T G EO s l name b s'). Qed.
Print Assumptions C82_text_back.
(** What the conversions are, for every type.  The layouts are tried in order; [Duration] is the only one
    that unescapes a raw string. *)
Theorem C82_conversions : forall E T c,
  (c_dt c = TInt -> forall d, fst (Duration E T c d) = to_i64 (c_sv c)) /\
  (In (c_dt c) [TString; TRaw] ->
     (forall t, t_parse_time T 0 (c_str c) = Some t -> GoTime E T c = Some t /\ DateTime E T c = x_delphi E t) /\
     (forall t, t_parse_time T 0 (c_str c) = None -> t_parse_time T 1 (c_str c) = Some t -> GoTime E T c = Some t /\ DateTime E T c = x_delphi E t) /\
     (forall t, t_parse_time T 0 (c_str c) = None -> t_parse_time T 1 (c_str c) = None -> t_parse_time T 2 (c_str c) = Some t ->
        GoTime E T c = Some t /\ DateTime E T c = x_delphi E t) /\
     ((forall i, t_parse_time T i (c_str c) = None) -> GoTime E T c = None /\ DateTime E T c = 13830554455654793216) /\
     (forall d, fst (Duration E T c d) =
        match t_duration T (if vt_eqb (c_dt c) TRaw then x_unescape E (c_str c) else c_str c) with Some n => n | None => d end)) /\
  (In (c_dt c) [TInt; TFloat; TDouble; TDateTime] -> GoTime E T c = Some (x_totime E (Double E c)) /\ DateTime E T c = Double E c) /\
  (~ In (c_dt c) [TInt; TString; TRaw] -> forall d, Duration E T c d = (d, c)) /\
  (~ In (c_dt c) [TInt; TFloat; TDouble; TDateTime; TString; TRaw] -> GoTime E T c = None /\ DateTime E T c = 13830554455654793216).
Proof.
  intros E T c. unfold Duration, GoTime, DateTime, parse_time, StringOf, Int. cbn [In].
  destruct (c_dt c); repeat split; intros; cbn [vt_eqb fst]; auto; try tauto;
    try match goal with H : _ \/ _ |- _ => exfalso; decompose [or] H; solve [discriminate|contradiction] end;
    try (rewrite H0, H1, H2; reflexivity); try (rewrite H0, H1; reflexivity); try (rewrite H0; reflexivity);
    try (rewrite !H0; reflexivity); try discriminate.
Qed.
Print Assumptions C82_conversions.
Example C82_conversions_nonvacuous : In (c_dt (hp (st_of e1 g0 [ONew TString]) 5)) [TString; TRaw] /\
  In (c_dt (hp (st_of e1 g0 [ONew TDouble]) 5)) [TInt; TFloat; TDouble; TDateTime] /\ ~ In (c_dt (hp (st_of e1 g0 [ONew TDouble]) 5)) [TInt; TString; TRaw].
Proof. vm_compute. repeat split; auto 6. intros [H|[H|[H|[]]]]; discriminate. Qed.
Definition t1 : tenv := {| t_i64_to_f32 := fun n => n; t_parse_time := fun i b => if beq b (bs "then") && (i =? 2)%nat then Some (77, 5) else None;
  t_duration := fun b => if beq b (bs "3s") then Some 3000000000 else None |}.
Example C82_back_nonvacuous : target e1 nested 5 (bs "n") /\
  (exists s', SetKeyTime e1 g0 nested 5 (bs "n") (77, 5) = Ok s' /\ fst (DateTimeByPath e1 t1 s' (Some 5%nat) 9 [bs "N"]) = x_delphi e1 (77, 5)) /\
  (exists s', SetKeyString e1 g0 nested 5 (bs "n") (bs "then") = Ok s' /\ fst (GoTimeByPath e1 t1 s' (Some 5%nat) None [bs "N"]) = Some (77, 5)) /\
  (exists s', SetKeyString e1 g0 nested 5 (bs "n") (bs "3s") = Ok s' /\ fst (DurationByPath e1 t1 s' (Some 5%nat) 9 [bs "N"]) = 3000000000).
Proof.
  split; [apply C42_nonvacuous|]. repeat split; apply ok_ex; vm_compute; reflexivity.
Qed.

(** The default is not what one gets for a value without a time: [DateTime] gives -1 and [GoTime] the zero
    time, whatever the default; [Duration] gives the default. *)
Theorem C82_default_refuted : forall E T s l paths m, env_ok E -> all_distinct E s -> walk E s l paths (Some m) ->
  In (c_dt (hp s m)) [TObject; TArray; TBinary; TExBinary; TNull; TTrue; TFalse; TNan; TInf] ->
  forall d, fst (DateTimeByPath E T s (Some l) d paths) = 13830554455654793216 /\
    (forall d', fst (GoTimeByPath E T s (Some l) d' paths) = None) /\ fst (DurationByPath E T s (Some l) d paths) = d.
Proof.
  intros E T s l paths m EO D W I d. destruct (proj2 (times_by_path E T (fun n => n) EO s l paths D) m W) as (_ & A & B & C).
  rewrite A, C. split; [|split; [intros d'; rewrite B|]]; unfold DateTime, GoTime, Duration; cbn [In] in I;
    repeat destruct I as [<-|I]; try destruct I; reflexivity.
Qed.
Print Assumptions C82_default_refuted.
Example C82_default_nonvacuous : walk e1 nested 5 [bs "A/"; bs "0"] (Some loc_true) /\ c_dt (hp nested loc_true) = TTrue.
Proof. split; [apply C82_by_path_nonvacuous|vm_compute; reflexivity]. Qed.

(** [SetTime] makes the value a time unless it holds a double: then it stays one, and [String] prints a
    number instead of a date. *)
Theorem C82_set_time_refuted : forall E s l t, (5 <= l)%nat ->
  c_dt (hp (SetTime E s l t) l) = (if vt_eqb (c_dt (hp s l)) TDouble then TDouble else TDateTime) /\
  fst (StringOf E (hp (SetTime E s l t) l)) =
    (if vt_eqb (c_dt (hp s l)) TDouble then x_fmt_f64 E (x_delphi E t) else x_fmt_time E (x_delphi E t)).
Proof. exact set_time_type. Qed.
Print Assumptions C82_set_time_refuted.
Example C82_set_time_nonvacuous :
  (c_dt (hp (st_of e1 g0 [ONew TDouble]) 5), c_dt (hp (st_of e1 g0 [ONew TDouble; OSetTime 5 (77, 5)]) 5),
   c_dt (hp (st_of e1 g0 [ONew TInt; OSetTime 5 (77, 5)]) 5)) = (TDouble, TDouble, TDateTime).
Proof. vm_compute. reflexivity. Qed.
