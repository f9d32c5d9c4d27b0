(** Property C42: typed setters and getters.  Each theorem is followed by what it assumes and by a
    concrete case. *)
From Coq Require Import String.
From Verif Require Import Base Values Tactics Env0 HeapModel HeapSpec HeapBase HeapConf HeapGet
  ApiSpec HeapMap HeapCalls HeapObj HeapForce HeapMono GetModel HeapTyped Properties_Map Properties_Heap Properties_Clone Properties_Merge.

(** Whatever a value held before, after a setter the getters give back what was set; the call touches
    this value only.  [l] is not one of the shared constants. *)
Theorem C42_int : forall E T s l n, (5 <= l)%nat -> - 2^63 <= n < 2^63 ->
  reads_int E T (hp (SetInt s l n) l) n /\ touches s (SetInt s l n) l.
Proof. exact set_int. Qed.
Print Assumptions C42_int.
Theorem C42_string : forall E s l b, (5 <= l)%nat -> reads_text E (hp (SetString s l b) l) b /\ touches s (SetString s l b) l.
Proof. exact set_string. Qed.
Print Assumptions C42_string.
Theorem C42_bool : forall E s l b, (5 <= l)%nat -> reads_bool E (hp (SetBool s l b) l) b /\ touches s (SetBool s l b) l.
Proof. exact set_bool. Qed.
Print Assumptions C42_bool.
Theorem C42_double : forall E T s l v, (5 <= l)%nat -> 0 <= v < 2^64 ->
  reads_double E T (hp (SetDouble s l v) l) v /\ touches s (SetDouble s l v) l.
Proof. exact set_double. Qed.
Print Assumptions C42_double.
Theorem C42_time : forall E T s l t, (5 <= l)%nat -> 0 <= x_delphi E t < 2^64 ->
  reads_double E T (hp (SetTime E s l t) l) (x_delphi E t) /\ touches s (SetTime E s l t) l.
Proof. intros E T s l t L B. exact (set_delphi E T s l (x_delphi E t) L B). Qed.
Print Assumptions C42_time.
Theorem C42_float : forall E T s l v, (5 <= l)%nat -> 0 <= v < 2^32 ->
  reads_float E T (hp (SetFloat s l v) l) v /\ touches s (SetFloat s l v) l.
Proof. exact set_float. Qed.
Print Assumptions C42_float.

(** [String] on a raw string: the unescaped text, now and at every later call. *)
Theorem C42_raw_string : forall E c, c_dt c = TRaw ->
  fst (StringOf E c) = x_unescape E (c_str c) /\
  StringOf E (snd (StringOf E c)) = (x_unescape E (c_str c), snd (StringOf E c)).
Proof. intros E c D. unfold StringOf. rewrite D. split; reflexivity. Qed.
Print Assumptions C42_raw_string.

(** Keyed setters, read back by name; only the container and the entry change. *)
Theorem C42_key_int : forall E G T s l name n s', env_ok E -> target E s l name -> - 2^63 <= n < 2^63 ->
  SetKeyInt E G s l name n = Ok s' ->
  exists r, holds E s l name s' r /\ reads_int E T (hp s' r) n /\ forall d, fst (IntByPath E s' (Some l) d [name]) = n.
Proof. intros E G T s l name n s' EO. exact (key_int E G EO T s l name n s'). Qed.
Print Assumptions C42_key_int.
Theorem C42_key_string : forall E G s l name b s', env_ok E -> target E s l name -> SetKeyString E G s l name b = Ok s' ->
  exists r, holds E s l name s' r /\ reads_text E (hp s' r) b /\ forall d, fst (StringByPath E s' (Some l) d [name]) = b.
Proof. intros E G s l name b s' EO. exact (key_string E G EO s l name b s'). Qed.
Print Assumptions C42_key_string.
Theorem C42_key_double : forall E G T s l name v s', env_ok E -> target E s l name -> 0 <= v < 2^64 ->
  SetKeyDouble E G s l name v = Ok s' ->
  exists r, holds E s l name s' r /\ reads_double E T (hp s' r) v /\ forall d, fst (DoubleByPath E s' (Some l) d [name]) = v.
Proof. intros E G T s l name v s' EO. exact (key_double E G EO T s l name v s'). Qed.
Print Assumptions C42_key_double.
Theorem C42_key_time : forall E G T s l name t s', env_ok E -> target E s l name -> 0 <= x_delphi E t < 2^64 ->
  SetKeyTime E G s l name t = Ok s' ->
  exists r, holds E s l name s' r /\ reads_double E T (hp s' r) (x_delphi E t).
Proof. intros E G T s l name t s' EO. exact (key_time E G EO T s l name t s'). Qed.
Print Assumptions C42_key_time.
Theorem C42_key_float : forall E G T s l name v s', env_ok E -> target E s l name -> 0 <= v < 2^32 ->
  SetKeyFloat E G s l name v = Ok s' ->
  exists r, holds E s l name s' r /\ reads_float E T (hp s' r) v /\
    forall d, fst (DoubleByPath E s' (Some l) d [name]) = x_f32_to_f64 E v.
Proof. intros E G T s l name v s' EO. exact (key_float E G EO T s l name v s'). Qed.
Print Assumptions C42_key_float.
Theorem C42_key_bool : forall E G s l name b, env_ok E -> tidy E s l -> c_dt (hp s l) = TObject ->
  (forall d, fst (BoolByPath E (SetKeyBool E G s l name b) (Some l) d [name]) = b) /\
  (forall x, x <> l -> hp (SetKeyBool E G s l name b) x = hp s x).
Proof. intros E G s l name b EO. exact (key_bool E G EO s l name b). Qed.
Print Assumptions C42_key_bool.

(** The getters by path change what the lookup of the path changes; [StringByPath] moreover unescapes the
    text it reads, and nothing else. *)
Theorem C42_effect : forall E s p paths,
  (forall d, snd (IntByPath E s p d paths) = snd (ValueByPath E s p paths)) /\
  (forall d, snd (BoolByPath E s p d paths) = snd (ValueByPath E s p paths)) /\
  (forall d, snd (DoubleByPath E s p d paths) = snd (ValueByPath E s p paths)) /\
  (forall d, let s1 := snd (ValueByPath E s p paths) in let s2 := snd (StringByPath E s p d paths) in
     (forall x, fst (ValueByPath E s p paths) <> Some x -> hp s2 x = hp s1 x) /\
     (forall x, fst (ValueByPath E s p paths) = Some x -> hp s2 x = snd (StringOf E (hp s1 x))) /\
     nx s2 = nx s1 /\ cs s2 = cs s1 /\ nc s2 = nc s1 /\ pl s2 = pl s1).
Proof.
  intros E s p paths. unfold IntByPath, BoolByPath, DoubleByPath, StringByPath.
  destruct (ValueByPath E s p paths) as [r s1]. cbn [fst snd]. split; [reflexivity|]. split; [reflexivity|]. split; [reflexivity|].
  intros d. cbv zeta. destruct r as [l|]; [|cbn [snd]; repeat split; auto; discriminate].
  destruct (StringOf E (hp s1 l)) as [x c] eqn:Q. cbn [snd set_cell hp nx cs nc pl]. repeat split; auto.
  - intros y Y. apply upd_other. congruence.
  - intros y Y. injection Y as <-. rewrite upd_same, Q. reflexivity.
Qed.
Print Assumptions C42_effect.
(** In a parsed object, the text under a key is unescaped by reading it. *)
Definition raw_st : st := st_of e1 g0 [OFromJson None (bs "{""k"":""a\/b""}")].
Example C42_effect_case : fst (ValueByPath e1 raw_st (Some 5%nat) [bs "k"]) = Some 6%nat /\ c_dt (hp raw_st 6) = TRaw /\
  c_str (hp raw_st 6) = bs "a\/b" /\
  let s' := snd (StringByPath e1 raw_st (Some 5%nat) [] [bs "k"]) in c_dt (hp s' 6) = TString /\ c_str (hp s' 6) = bs "a/b".
Proof. repeat split; vm_compute; reflexivity. Qed.

(** The nested parsed object: a new key, and a key that holds an array already. *)
Definition t0 : tenv := {| t_i64_to_f32 := fun n => n; t_parse_time := fun _ _ => None; t_duration := fun _ => None |}.
Example C42_nonvacuous : target e1 nested 5 (bs "n") /\ target e1 nested 5 (bs "A/") /\
  (exists s', SetKeyInt e1 g0 nested 5 (bs "n") (-42) = Ok s' /\
    (fst (IntByPath e1 s' (Some 5%nat) 0 [bs "n"]), fst (StringByPath e1 s' (Some 5%nat) [] [bs "N"])) = (-42, bs "-42")) /\
  (exists s', SetKeyString e1 g0 nested 5 (bs "A/") (bs "true") = Ok s' /\
    (fst (StringByPath e1 s' (Some 5%nat) [] [bs "a/"]), fst (BoolByPath e1 s' (Some 5%nat) false [bs "a/"])) = (bs "true", true)) /\
  c_dt (hp nested 6) = TArray /\ Int e1 (hp (SetInt nested 6 7) 6) = 7 /\
  c_dt (mkCell TRaw 0 false [] [] None 0 (bs "a\/") [] []) = TRaw /\
  fst (StringOf e1 (mkCell TRaw 0 false [] [] None 0 (bs "a\/") [] [])) = bs "a/".
Proof.
  assert (TG : forall k, target e1 nested 5 k).
  { intros k. split; [exact nested_tidy|]. split; [left; reflexivity|]. intros D. discriminate D. }
  split; [apply TG|]. split; [apply TG|]. split; [apply ok_ex; vm_compute; reflexivity|].
  split; [apply ok_ex; vm_compute; reflexivity|]. repeat split; vm_compute; reflexivity.
Qed.

(** [SetFloat] writes half of the number slot and [Bool] reads all of it: after [SetDouble(-1)] and
    [SetFloat(1)] the value is 1, yet [Bool] is false, while for a value that held nothing it is true. *)
Theorem C42_float_bool_refuted : forall E T s l, (5 <= l)%nat -> c_dt (hp s l) = TInt -> c_sv (hp s l) = 0 ->
  let s1 := SetFloat s l 1065353216 in
  let s2 := SetFloat (SetDouble s l 13830554455654793216) l 1065353216 in
  Float E T (hp s1 l) = 1065353216 /\ Float E T (hp s2 l) = 1065353216 /\
  Bool E (hp s1 l) = true /\ Bool E (hp s2 l) = false.
Proof.
  intros E T s l L D S0 s1 s2.
  assert (A : forall c, c_dt c = TFloat -> Float E T c = c_sv c mod 2^32 /\ Bool E c = (0 <? to_i64 (c_sv c))).
  { intros c Q. unfold Float, Bool. rewrite Q. auto. }
  assert (H : forall t c, hp (set_cell t l c) l = c) by (intros t c; cbn [set_cell hp]; apply upd_same).
  assert (C1 : c_dt (hp s1 l) = TFloat /\ c_sv (hp s1 l) = 1065353216).
  { unfold s1, SetFloat, ensure, Reset. rewrite (proj2 (ReadOnly_ge l) L), D. change (vt_eqb TInt TFloat) with false.
    cbv iota zeta. rewrite !H. unfold reset_cell. cbn [w_sv c_dt c_sv]. rewrite S0. auto. }
  assert (C2 : c_dt (hp s2 l) = TFloat /\ c_sv (hp s2 l) = 13830554455654793216 + 1065353216).
  { unfold s2, SetFloat, SetDouble, ensure, Reset. rewrite (proj2 (ReadOnly_ge l) L), D. change (is_dbl TInt) with false.
    cbv iota zeta. rewrite !H. unfold reset_cell. cbn [w_sv c_dt c_sv].
    change (vt_eqb TDouble TFloat) with false. cbv iota. rewrite !H. cbn [w_sv c_dt c_sv]. auto. }
  destruct C1 as [D1 V1], C2 as [D2 V2]. destruct (A _ D1) as [-> ->], (A _ D2) as [-> ->]. rewrite V1, V2. repeat split; reflexivity.
Qed.
Print Assumptions C42_float_bool_refuted.
Example C42_float_nonvacuous : c_dt (hp (st_of e1 g0 [ONew TInt]) 5) = TInt /\ c_sv (hp (st_of e1 g0 [ONew TInt]) 5) = 0.
Proof. repeat split; vm_compute; reflexivity. Qed.
