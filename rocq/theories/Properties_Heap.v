(** Properties C33, C34, C39: [ForcePath], the shared constants, recycled cells.  Each theorem is
    followed by what it assumes and by a concrete case. *)
From Coq Require Import String.
From Verif Require Import Base Values Tactics Env0 HeapModel HeapSpec HeapBase HeapConf HeapGet
  ApiSpec HeapMap HeapCalls HeapObj HeapArr HeapForce Properties_Map.

(** ** C33 *)
Theorem C33_path_found : forall E G s l t paths r s', env_ok E -> paths <> [] -> tidy E s l ->
  (c_dt (hp s l) = TObject \/ c_dt (hp s l) = TArray) -> in_bounds E s l paths ->
  ForcePath E G s l t paths = Ok (r, s') ->
  exists n, r = Some n /\ fst (ValueByPath E s' (Some l) paths) = Some n /\ c_dt (hp s' n) = t /\
    (forall x, live s x -> ~ reach (hp s) l x -> hp s' x = hp s x).
Proof. intros E G s l t paths r s' EO. exact (force_path_found E G EO s l t paths r s'). Qed.
Print Assumptions C33_path_found.

(** Graphs with a rank that falls along every edge are acyclic. *)
Lemma rank_acyclic h (rk : nat -> nat) : (forall x y, sees (h x) y -> (rk y < rk x)%nat) ->
  forall x y, sees (h x) y -> ~ reach h y x.
Proof.
  intros R x y S H. assert (D : forall a b, reach h a b -> (rk b <= rk a)%nat).
  { intros a b K. induction K as [|u v K IH T]; [lia|]. apply R in T. lia. }
  apply R in S. apply D in H. lia.
Qed.
Lemma nested_cell x : x = 5%nat \/ x = 6%nat \/ x = 7%nat \/ (hp nested x = hp st0 x).
Proof.
  destruct (Nat.eq_dec x 5); auto. destruct (Nat.eq_dec x 6); auto. destruct (Nat.eq_dec x 7); auto.
  right; right; right. unfold nested; cbn [hp]. rewrite !upd_other by auto. reflexivity.
Qed.
Lemma no_kids_st0 x y : ~ child (hp st0 x) y.
Proof. unfold st0, child; cbn [hp]. destruct (ReadOnly x); cbn; tauto. Qed.
Lemma nested_child x y : child (hp nested x) y -> (x = 5 /\ y = 6)%nat \/ (x = 6 /\ y = 0)%nat \/ (x = 6 /\ y = 7)%nat.
Proof.
  intros H. destruct (nested_cell x) as [->|[->|[->|Q]]].
  - destruct H as [[H|[]]|[]]. cbn in H. injection H as <-. auto.
  - destruct H as [[]|[H|[H|[]]]]; cbn in H; injection H as <-; auto.
  - destruct H as [[]|[]].
  - rewrite Q in H. apply no_kids_st0 in H. destruct H.
Qed.
Lemma wf_nested : wf nested.
Proof.
  constructor; try (intros; cbn in *; tauto); try (cbn; lia).
  - intros l L. destruct (nested_cell l) as [->|[->|[->|Q]]]; try lia. rewrite Q. apply (i_const _ _ _ wf_st0 l L).
  - intros l L. cbn [nested nx] in L. destruct (nested_cell l) as [->|[->|[->|Q]]]; try lia. rewrite Q. apply (i_fresh _ _ _ wf_st0). cbn. lia.
  - intros l L. split.
    + intros x X. apply nested_child in X. cbn. lia.
    + intros k K. destruct (nested_cell l) as [->|[->|[->|Q]]]; try discriminate. rewrite Q in K.
      unfold st0 in K; cbn [hp] in K. destruct (ReadOnly l); discriminate.
  - intros l _. split; intros x X Y; exact Y.
  - intros l [].
  - intros l [].
Qed.
Lemma nested_distinct : all_distinct e1 nested.
Proof. exact (proj1 C32_nonvacuous). Qed.
Lemma nested_tidy : tidy e1 nested 5.
Proof.
  constructor.
  - exact wf_nested.
  - intros x R. assert (X : x = 5%nat \/ x = 6%nat \/ x = 7%nat \/ x = 0%nat).
    { induction R as [|x y R IH S]; auto. apply sees_child, nested_child in S. lia. }
    split; [cbn; lia|]. intros k K. cbn in K. lia.
  - intros x _ T. apply nested_distinct. exact T.
  - intros x y _. apply rank_acyclic with (rk := fun x => match x with 5 => 3 | 6 => 2 | 7 => 1 | _ => 0 end%nat).
    intros a b S. apply sees_child, nested_child in S. destruct S as [[-> ->]|[[-> ->]|[-> ->]]]; lia.
Qed.
(** [v.ForcePath(Int, "a/", "2", "x")] on [{"a\/":[true,{}]}]. *)
Example C33_nonvacuous : exists s', ForcePath e1 g0 nested 5 TInt [bs "a/"; bs "2"; bs "x"] = Ok (Some 9%nat, s') /\
  tidy e1 nested 5 /\ in_bounds e1 nested 5 [bs "a/"; bs "2"; bs "x"] /\ Count s' 6 = 3.
Proof.
  eexists. split; [vm_compute; reflexivity|]. split; [exact nested_tidy|]. split; [|reflexivity].
  intros p key q m Q W T.
  apply (path_lookup_is_walk e1 g0 (env0_ok true) nested 5 p (Some m) nested_distinct) in W.
  destruct p as [|k1 p]; [injection W as <-; discriminate|]. injection Q as <- Q.
  destruct p as [|k2 p].
  - injection Q as <- <-. vm_compute in W. injection W as <-. vm_compute. split; [discriminate|discriminate].
  - injection Q as <- Q. destruct p as [|k3 p]; [vm_compute in W; discriminate|].
    injection Q as <- Q. destruct p; discriminate.
Qed.

(** An index beyond the end: the node is appended, so the path does not lead to it. *)
Theorem C33_index_beyond_end_refuted : forall E G s m key t, good_arr s m ->
  zlen (c_arr (hp s m)) < x_str2int E key (-1) ->
  exists n s', ForcePath E G s m t [key] = Ok (Some n, s') /\ fst (ValueByPath E s' (Some m) [key]) = None /\
    zlen (c_arr (hp s' m)) = zlen (c_arr (hp s m)) + 1.
Proof.
  intros E G s m key t Gd L. assert (Dt : c_dt (hp s m) = TArray) by apply Gd.
  destruct (SetIndex G s m (x_str2int E key (-1)) t) as [n s'] eqn:SI.
  destruct (arr_set_cached_spec G s m _ t (c_own (hp s m)) n s' Gd (own_okc s m (proj1 Gd)) SI) as [Gd' SA].
  assert (Dt' : c_dt (hp s' m) = TArray) by apply Gd'.
  assert (A : c_arr (hp s' m) = c_arr (hp s m) ++ [Some n]).
  { destruct SA as [SA|SA]; [exfalso; destruct SA as [SA _]; lia|apply SA]. }
  assert (A' : zlen (c_arr (hp s' m)) = zlen (c_arr (hp s m)) + 1).
  { exact (eq_trans (f_equal zlen A) (zlen_app _ _)). }
  exists n, s'. split; [|split; [|exact A']].
  - unfold ForcePath, force_loop. cbn [bind List.last]. unfold SetKey, SetKeyCached. rewrite Dt.
    change (vt_eqb TArray TArray) with true. pose proof (zlen_nonneg (c_arr (hp s m))).
    destruct (Z.eqb_spec (x_str2int E key (-1)) (-1)); [lia|]. cbn [andb negb]. rewrite SI. reflexivity.
  - cbn [ValueByPath path_loop]. unfold ValueByName. rewrite Dt'.
    assert (B : (zlen (c_arr (hp s' m)) - 1 <? x_str2int E key (-1)) = true) by (apply Z.ltb_lt; lia).
    rewrite B, orb_true_r. reflexivity.
Qed.
Print Assumptions C33_index_beyond_end_refuted.
Example C33_refuted_nonvacuous : good_arr tA oA /\ zlen (c_arr (hp tA oA)) < x_str2int e1 (bs "3") (-1).
Proof. split; [exact good_tA|vm_compute; reflexivity]. Qed.

(** ** C34 *)
Definition const_value (l : nat) : value :=
  match l with O => VTrue | S O => VFalse | S (S O) => VNull | S (S (S O)) => VNan | _ => VInf end.
Theorem C34_constants : forall E G os s l, runs E G none_set st0 os s -> (l < 5)%nat ->
  rep (hp s) (Some l) (const_value l) /\
  Int E (hp s l) = Int E (hp st0 l) /\ Bool E (hp s l) = Bool E (hp st0 l) /\ Double E (hp s l) = Double E (hp st0 l) /\
  fst (StringOf E (hp s l)) = fst (StringOf E (hp st0 l)) /\ snd (StringOf E (hp s l)) = hp s l /\
  Count s l = 0 /\ (forall name, ValueByName E s l name = (None, s)) /\
  (forall i, ValueByIndex s l i = None /\ Items E s l i = ([], None, s) /\ KeyNameByIndex s l i = []).
Proof.
  intros E G os s l R L. pose proof (proj1 (tr_runs none_set none_set E G st0 os s wf_st0 R)) as I.
  pose proof (i_const _ _ _ I l L) as D. pose proof (i_const _ _ _ wf_st0 l L) as D0.
  unfold Int, Bool, Double, StringOf, Count, ValueByName, ValueByIndex, Items, KeyNameByIndex. rewrite D, D0.
  do 5 (destruct l as [|l]; [split; [constructor; exact D|cbn; repeat split]|]). lia.
Qed.
Print Assumptions C34_constants.
(** Calls aimed at the constants: every setter on [null] and [true], a key set on [true]. *)
Definition attack : list op :=
  [OSetInt 2 42; OSetString 0 (bs "x"); OSetBool 0 false; OSetKey 0 (bs "k") TInt; OReset 1 TObject; OClear 2; OSetTime 3 (1, 2)].
Fixpoint run_all (E : env) (G : nat -> nat) (s : st) (os : list op) : res st :=
  match os with
  | [] => Ok s
  | o :: r => do (_, s1) <- run E G 10 s o; run_all E G s1 r
  end.
Fixpoint all_in (E : env) (G : nat -> nat) (s : st) (os : list op) : bool :=
  match os with
  | [] => true
  | o :: r => forallb (fun l => (l <? nx s)%nat) (handles o) &&
      match run E G 10 s o with Ok (_, s1) => all_in E G s1 r | _ => false end
  end.
Lemma run_all_runs E G os : forall s s', all_in E G s os = true -> run_all E G s os = Ok s' -> runs E G none_set s os s'.
Proof.
  induction os as [|o os IH]; intros s s' A R; cbn [run_all all_in] in *.
  - injection R as <-. constructor.
  - apply andb_true_iff in A as [A1 A2]. destruct (run E G 10 s o) as [[r s1]| | |] eqn:Q; try discriminate.
    eapply runs_cons with (fuel := 10%nat); [|exact Q|apply IH; auto].
    intros l L. rewrite forallb_forall in A1. apply A1 in L. apply Nat.ltb_lt in L. split; [exact L|intros []].
Qed.
Example C34_nonvacuous : exists s, runs e1 g0 none_set st0 attack s /\ c_sv (hp s 2) = 42 /\
  c_kvs (hp s 0) <> [] /\ Count s 0 = 0.
Proof.
  eexists. split; [apply run_all_runs; [vm_compute; reflexivity|vm_compute; reflexivity]|].
  split; [reflexivity|split; [cbn; discriminate|reflexivity]].
Qed.
(** The constants do carry hidden state from one caller to the next: [SetKey] on the shared [null]
    stores its cell in the invisible pair list, and the next [SetKey] of that name returns it. *)
Lemma hidden_cell E G w : env_ok E ->
  exists r s1 s3, SetKey E G st0 loc_null (bs "k") TInt = Ok (r, s1) /\ c_dt (hp s1 r) = TInt /\
    SetKey E G (set_cell s1 r (w_sv (hp s1 r) w)) loc_null (bs "k") TInt = Ok (r, s3) /\
    c_dt (hp s3 r) = TInt /\ c_sv (hp s3 r) = w /\ Count s3 loc_null = 0.
Proof.
  intros EO. pose proof (fold_refl _ EO (bs "k")) as FR.
  destruct E as [ic fold un]; cbn [ignore_case x_fold] in *.
  destruct ic; vm_compute in FR; do 3 eexists; (split; [vm_compute; reflexivity|]); (split; [reflexivity|]).
  - split; [vm_compute; rewrite FR; vm_compute; reflexivity|repeat split; reflexivity].
  - split; [vm_compute; reflexivity|repeat split; reflexivity].
Qed.
Theorem C34_hidden_state_refuted : forall E G n, env_ok E ->
  exists r s1 s3, SetKey E G st0 loc_null (bs "k") TInt = Ok (r, s1) /\
    SetKey E G (SetInt s1 r n) loc_null (bs "k") TInt = Ok (r, s3) /\
    Int E (hp s3 r) = to_i64 (to_u64 n) /\ Count s3 loc_null = 0.
Proof.
  intros E G n EO. destruct (hidden_cell E G (to_u64 n) EO) as (r & s1 & s3 & A & B & C & D & F & H).
  exists r, s1, s3. split; [exact A|]. split.
  - unfold SetInt, ensure. rewrite B. change (vt_eqb TInt TInt) with true. cbv iota zeta. exact C.
  - split; [|exact H]. unfold Int. rewrite D, F. reflexivity.
Qed.
Print Assumptions C34_hidden_state_refuted.

(** ** C39 *)
Theorem C39_clean : forall E G os s c t, runs E G none_set st0 os s -> (forall k, c = Some k -> (k < nc s)%nat) ->
  let (r, s') := getValue G s c t in
  clean (hp s' r) t /\ ~ live s r /\ live s' r /\ (5 <= r)%nat /\
  (forall x, live s x -> hp s' x = hp s x /\ live s' x).
Proof.
  intros E G os s c t R OC. pose proof (proj1 (tr_runs none_set none_set E G st0 os s wf_st0 R)) as I.
  assert (OC' : ok_cache none_set s c).
  { intros k K. split; [apply OC; exact K|intros []]. }
  pose proof (getValue_got G s c t I OC') as GV. destruct (getValue G s c t) as [r s'].
  cbn [fst snd] in GV. split; [apply GV|]. split; [apply GV|]. split; [apply GV|]. split; [apply GV|].
  intros x L. split; [apply (got_frame _ _ _ _ x GV L)|apply GV; exact L].
Qed.
Print Assumptions C39_clean.

Lemma to_i64_to_u64 n : -2^63 <= n < 2^63 -> to_i64 (to_u64 n) = n.
Proof.
  intros B. unfold to_i64, to_u64. rewrite ?Z.mod_mod by lia.
  change (2^64) with 18446744073709551616 in *. change (2^63) with 9223372036854775808 in *.
  destruct (Z.ltb_spec (n mod 18446744073709551616) 9223372036854775808); lia.
Qed.
(** The 8-byte numeric field is not cleared: a freed integer is read back by the next user. *)
Theorem C39_number_survives_refuted : forall G n, (-2^63 <= n < 2^63) ->
  let s1 := snd (NewCacheValue G st0 None TInt) in
  let r := fst (NewCacheValue G st0 None TInt) in
  exists s3 s4, FreeValue (SetInt s1 r n) (Some r) = Ok s3 /\
    NewCacheValue G s3 (Some 0%nat) TInt = (r, s4) /\ forall E, Int E (hp s4 r) = n.
Proof.
  intros G n B s1 r. assert (K : forall w, exists s3 s4, FreeValue (set_cell s1 r (w_sv (hp s1 r) w)) (Some r) = Ok s3 /\
    NewCacheValue G s3 (Some 0%nat) TInt = (r, s4) /\ c_dt (hp s4 r) = TInt /\ c_sv (hp s4 r) = w).
  { intros w. do 2 eexists. split; [vm_compute; reflexivity|]. split; [vm_compute; reflexivity|]. split; reflexivity. }
  destruct (K (to_u64 n)) as (s3 & s4 & A & C & D & F). exists s3, s4. split; [|split; [exact C|]].
  - unfold SetInt, ensure. change (c_dt (hp s1 r)) with TInt. change (vt_eqb TInt TInt) with true. cbv iota zeta. exact A.
  - intros E. unfold Int. rewrite D, F. apply to_i64_to_u64; exact B.
Qed.
Print Assumptions C39_number_survives_refuted.
(** An array of three strings from one cache, freed and reused. *)
Definition reuse : list op :=
  [ONewCache None TArray] ++ map (fun i => OSetIndex 5 (Z.of_nat i) TString) (seq 0 3) ++
  [OSetString 6 (bs "secret"); OFree (Some 5%nat); ONewCache (Some 0%nat) TObject].
Example C39_nonvacuous : exists s, runs e1 g0 none_set st0 reuse s /\
  fst (getValue g0 s (Some 0%nat) TString) = 6%nat /\ c_str (hp s 6) = bs "secret" /\
  c_str (hp (snd (getValue g0 s (Some 0%nat) TString)) 6) = [].
Proof.
  eexists. split; [apply run_all_runs; [vm_compute; reflexivity|vm_compute; reflexivity]|]. repeat split; vm_compute; reflexivity.
Qed.
