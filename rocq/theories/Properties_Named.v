(** Property C97: getters by name with a default, and the encoders as methods.  Each theorem is followed by
    what it assumes and by a concrete case. *)
From Coq Require Import String.
From Verif Require Import Base Values Tactics Env0 HeapModel HeapSpec HeapBase HeapConf HeapGet ApiSpec HeapCalls HeapObj GetModel
  JsonModel JsonSpec JsonThms JsonWrite MsgPackModel MsgPackSpec MsgPackThms NamedModel Properties_Json Properties_MsgPack Properties_Map Properties_Heap Properties_Merge Properties_Times.

(** What the getters of one kind say, whatever the name they go by: [d] is the default. *)
Definition all_defaults (E : env) (T : tenv) (s : st) (p : ptr) (name : bytes) : Prop :=
  (forall d, fst (AsString E s p name d) = d /\ fst (StringByName E s p name d) = d) /\
  (forall d, fst (AsBool E s p name d) = d /\ fst (BoolByName E s p name d) = d) /\
  (forall d, fst (AsInt E s p name d) = d /\ fst (IntByName E s p name d) = d /\ fst (AsInt64 E s p name d) = d) /\
  (forall d, fst (AsFloat E T s p name d) = d /\ fst (FloatByName E T s p name d) = d) /\
  (forall d, fst (AsDouble E s p name d) = d /\ fst (DoubleByName E s p name d) = d) /\
  (forall d, fst (AsDateTime E T s p name d) = d) /\ (forall d, fst (TimeByName E T s p name d) = d) /\
  (forall d, fst (AsDuration E T s p d name) = d /\ fst (DurationByName E T s p d name) = d).
Definition all_read (E : env) (T : tenv) (s : st) (p : ptr) (name : bytes) (c : cell) : Prop :=
  (forall d, fst (AsString E s p name d) = fst (StringOf E c) /\ fst (StringByName E s p name d) = fst (StringOf E c)) /\
  (forall d, fst (AsBool E s p name d) = Bool E c /\ fst (BoolByName E s p name d) = Bool E c) /\
  (forall d, fst (AsInt E s p name d) = Int E c /\ fst (IntByName E s p name d) = Int E c /\ fst (AsInt64 E s p name d) = Int E c) /\
  (forall d, fst (AsFloat E T s p name d) = Float E T c /\ fst (FloatByName E T s p name d) = Float E T c) /\
  (forall d, fst (AsDouble E s p name d) = Double E c /\ fst (DoubleByName E s p name d) = Double E c) /\
  (forall d, fst (AsDateTime E T s p name d) = DateTime E T c) /\ (forall d, fst (TimeByName E T s p name d) = GoTime E T c) /\
  (forall d, fst (AsDuration E T s p d name) = fst (Duration E T c d) /\ fst (DurationByName E T s p d name) = fst (Duration E T c d)).

(** No entry of that name (or a nil one, or no container, or a nil receiver): the default. *)
Theorem C97_missing : forall E T s l name, env_ok E -> all_distinct E s -> walk E s l [name] None ->
  fst (Find E s l name) = None /\ all_defaults E T s (Some l) name.
Proof.
  intros E T s l name EO D W. assert (Q : fst (ValueByPath E s (Some l) [name]) = None) by (apply (C32_walk E s l [name] None EO D); exact W).
  split.
  - unfold Find. cbn [ValueByPath path_loop] in Q. destruct (ValueByName E s l name) as [[m|] s1]; [discriminate|reflexivity].
  - unfold all_defaults, AsString, StringByName, AsString, AsBool, BoolByName, AsBool, AsInt, IntByName, AsInt, AsInt64, AsFloat, FloatByName, AsFloat,
      AsDouble, DoubleByName, AsDouble, AsDateTime, TimeByName, AsDuration, DurationByName,
      StringByPath, BoolByPath, IntByPath, FloatByPath, DoubleByPath, DateTimeByPath, GoTimeByPath, DurationByPath.
    destruct (ValueByPath E s (Some l) [name]) as [q s1]; cbn [fst] in Q; subst q. repeat split; intros; reflexivity.
Qed.
Print Assumptions C97_missing.
Theorem C97_nil : forall E T s name, all_defaults E T s None name.
Proof. intros. repeat split; intros; reflexivity. Qed.
Print Assumptions C97_nil.
(** An entry of that name: what the getter without a name says of it, and the default does not matter
    (but for durations). *)
Theorem C97_found : forall E T s l name m, env_ok E -> all_distinct E s -> walk E s l [name] (Some m) ->
  fst (Find E s l name) = Some m /\ all_read E T s (Some l) name (hp s m).
Proof.
  intros E T s l name m EO D W. assert (Q : fst (ValueByPath E s (Some l) [name]) = Some m) by (apply (C32_walk E s l [name] (Some m) EO D); exact W).
  split.
  - unfold Find. cbn [ValueByPath path_loop] in Q. destruct (ValueByName E s l name) as [[x|] s1]; [exact Q|discriminate].
  - destruct (path_cells E [name] s l m) as (H1 & H2 & H3).
    unfold all_read, AsString, StringByName, AsString, AsBool, BoolByName, AsBool, AsInt, IntByName, AsInt, AsInt64, AsFloat, FloatByName, AsFloat,
      AsDouble, DoubleByName, AsDouble, AsDateTime, TimeByName, AsDuration, DurationByName,
      StringByPath, BoolByPath, IntByPath, FloatByPath, DoubleByPath, DateTimeByPath, GoTimeByPath, DurationByPath.
    unfold ValueByPath in *. destruct (path_loop E s l [name]) as [q s1]; cbn [fst snd] in *. subst q.
    assert (ST : fst (StringOf E (hp s1 m)) = fst (StringOf E (hp s m))).
    { unfold StringOf. rewrite H1, H2, H3. destruct (c_dt (hp s m)); reflexivity. }
    assert (DU : forall d, fst (Duration E T (hp s1 m) d) = fst (Duration E T (hp s m) d)).
    { intros d. unfold Duration. rewrite H1. destruct (c_dt (hp s m)) eqn:TT; try reflexivity; try (unfold Int; rewrite H1, TT, H3; reflexivity);
        destruct (StringOf E (hp s1 m)) as [b c], (StringOf E (hp s m)) as [b' c']; cbn [fst] in *; subst b'; reflexivity. }
    assert (DB : Double E (hp s1 m) = Double E (hp s m)) by (unfold Double; rewrite H1, H2, H3; reflexivity).
    repeat split; intros; cbn [fst];
      try (destruct (StringOf E (hp s1 m)) as [b c]; exact ST);
      try (rewrite <- DU; destruct (Duration E T (hp s1 m) d); reflexivity);
      unfold Bool, Int, Float, Double, DateTime, GoTime; rewrite ?DB, H1, ?H2, ?H3; reflexivity.
Qed.
Print Assumptions C97_found.
(** "The default where there is nothing to read" fails for an entry that is null or a container: the
    answer is 0, false, 30.12.1899 less a day or the zero time.  Only a duration falls back. *)
Theorem C97_default_refuted : forall E T s l name m, env_ok E -> all_distinct E s -> walk E s l [name] (Some m) ->
  c_dt (hp s m) = TNull \/ c_dt (hp s m) = TObject \/ c_dt (hp s m) = TArray ->
  (forall d, fst (AsBool E s (Some l) name d) = false) /\ (forall d, fst (AsInt E s (Some l) name d) = 0) /\
  (forall d, fst (AsFloat E T s (Some l) name d) = 0) /\ (forall d, fst (AsDouble E s (Some l) name d) = 0) /\
  (forall d, fst (AsDateTime E T s (Some l) name d) = 13830554455654793216) /\ (forall d, fst (TimeByName E T s (Some l) name d) = None) /\
  (forall d, fst (AsDuration E T s (Some l) d name) = d) /\
  (c_dt (hp s m) = TNull -> forall d, fst (AsString E s (Some l) name d) = bs "null").
Proof.
  intros E T s l name m EO D W K. destruct (C97_found E T s l name m EO D W) as (_ & AS & AB & AI & AF & AD & AT & AG & AU).
  assert (B : Bool E (hp s m) = false /\ Int E (hp s m) = 0 /\ Float E T (hp s m) = 0 /\ Double E (hp s m) = 0 /\
    DateTime E T (hp s m) = 13830554455654793216 /\ GoTime E T (hp s m) = None /\ forall d, fst (Duration E T (hp s m) d) = d).
  { unfold Bool, Int, Float, Double, DateTime, GoTime, Duration. destruct K as [-> |[-> | ->]]; repeat split. }
  destruct B as (B1 & B2 & B3 & B4 & B5 & B6 & B7). repeat split; intros.
  - rewrite <- B1. apply AB.
  - rewrite <- B2. apply AI.
  - rewrite <- B3. apply AF.
  - rewrite <- B4. apply AD.
  - rewrite <- B5. apply AT.
  - rewrite <- B6. apply AG.
  - rewrite <- B7. apply AU.
  - rewrite (proj1 (AS d)). unfold StringOf. rewrite H. reflexivity.
Qed.
Print Assumptions C97_default_refuted.
(** What a getter by name leaves behind is what the lookup does, and the reading of a raw string. *)
Theorem C97_effect : forall E T s l name, env_ok E ->
  (forall d, snd (AsInt E s (Some l) name d) = snd (Find E s l name)) /\
  (forall d, snd (AsBool E s (Some l) name d) = snd (Find E s l name)) /\
  (forall d, snd (AsDouble E s (Some l) name d) = snd (Find E s l name)) /\
  (forall d, snd (AsFloat E T s (Some l) name d) = snd (Find E s l name)) /\
  (forall d, snd (AsDateTime E T s (Some l) name d) = snd (Find E s l name)) /\
  (forall d, snd (TimeByName E T s (Some l) name d) = snd (Find E s l name)) /\
  (forall x, x <> l -> hp (snd (Find E s l name)) x = hp s x) /\
  (c_dt (hp s l) <> TObject -> snd (Find E s l name) = s).
Proof.
  intros E T s l name EO.
  assert (V : forall A (f : ptr -> st -> A), (let (r, s1) := ValueByPath E s (Some l) [name] in (f r s1, s1)) =
    (f (fst (Find E s l name)) (snd (Find E s l name)), snd (Find E s l name))).
  { intros A f. unfold Find. cbn [ValueByPath path_loop]. destruct (ValueByName E s l name) as [[x|] s1]; reflexivity. }
  unfold AsInt, AsBool, AsDouble, AsFloat, AsDateTime, TimeByName, IntByPath, BoolByPath, DoubleByPath, FloatByPath, DateTimeByPath, GoTimeByPath.
  repeat split; intros.
  1-6: match goal with |- context [ValueByPath] => destruct (ValueByPath E s (Some l) [name]) as [r s1] eqn:Q end;
    specialize (V unit (fun _ _ => tt)); try rewrite Q in V; injection V as V; exact V.
  - apply lookup_frame; auto.
  - unfold Find, ValueByName. destruct (c_dt (hp s l)); try reflexivity. destruct (H eq_refl).
Qed.
Print Assumptions C97_effect.

(** [ToJson], formatted or not, and [ToMsgPack]: reading the output back gives the value. *)
Theorem C97_to_json : forall E f dt (all : bool) v, let st := if all then JSE_AllEscape else JSE_OnlyAnsiChar in
  int_parser_ok E -> jplain E all v -> ~ top_int v ->
  exists b v', ToJson E f st dt v [] = Ok b /\ NewValueFromJson E b = Ok v' /\ denote E v' = denote E v.
Proof.
  intros E f dt all v st EI P NT.
  destruct (C18_roundtrip E st dt all v [] EI eq_refl P (Forall_nil _)) as (b & v' & Q & L & DN); [tauto|]. rewrite app_nil_r in L.
  destruct (C19_same E st dt v []) as (bc & bf & Qc & Qf & S & _); [pose proof (jplain_writable E st dt all v) as WR; subst st; destruct all; apply WR; auto|].
  cbn [app] in Qc, Qf. assert (bc = b) by congruence. subst bc.
  destruct f; [exists bf, v'|exists b, v']; (split; [assumption|split; [congruence|exact DN]]).
Qed.
Print Assumptions C97_to_json.
Theorem C97_to_msgpack : forall E v, fits E v -> plain E v -> no_fixext v -> NewValueFromMsgPack E (ToMsgPack E v []) = Ok v.
Proof. intros E v H1 H2 H3. unfold ToMsgPack. rewrite <- (app_nil_r (Value2MsgPack E v [])). apply C01_NewValueFromMsgPack; auto. Qed.
Print Assumptions C97_to_msgpack.

Example C97_case : all_distinct e1 nested /\ walk e1 nested 5 [bs "A/"] (Some 6%nat) /\ c_dt (hp nested 6) = TArray /\ walk e1 nested 5 [bs "b"] None /\
  fst (AsInt e1 nested (Some 5%nat) (bs "A/") 9) = 0 /\ fst (AsInt e1 nested (Some 5%nat) (bs "b") 9) = 9 /\
  fst (BoolByName e1 nested (Some 6%nat) (bs "0") false) = true /\ fst (Find e1 nested 6 (bs "1")) = Some 7%nat.
Proof.
  split; [apply C32_nonvacuous|]. split.
  { eapply (walk_key e1 nested 5 _ (bs "a/") 6); [reflexivity|left; reflexivity|reflexivity|constructor]. }
  split; [reflexivity|]. split.
  { apply walk_no_key; [reflexivity|]. intros k p I. vm_compute in I. destruct I as [I|[]]. injection I as <- <-. vm_compute. reflexivity. }
  repeat split; vm_compute; reflexivity.
Qed.
Example C97_json_case : int_parser_ok (env0 false) /\ jplain (env0 false) true Properties_Json.sample /\ ~ top_int Properties_Json.sample /\
  ToJson (env0 false) false JSE_AllEscape false Properties_Json.sample [] <> ToJson (env0 false) true JSE_AllEscape false Properties_Json.sample [].
Proof.
  split; [apply C18_nonvacuous|]. split; [apply C18_nonvacuous|]. split; [intros H; exact H|]. vm_compute. discriminate.
Qed.
