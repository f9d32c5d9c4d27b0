(** Properties C48 and C62: importing Go values. *)
From Coq Require Import String Permutation.
From Verif Require Import Base Values Tactics Env0 HeapModel MsgLoadModel ReflectModel HeapSpec MsgLoadSpec ReflectSpec HeapBase HeapConf
  HeapGet HeapCalls HeapClone HeapMap HeapBuild ReflectThms ReflectPerm ReflectRoot HeapView Properties_Map Properties_Merge.

(** ** C62 *)
(** [SetValue] with a Go value that is kept ([root_kept], ReflectSpec.v), on any value that is not one
    of the shared constants, in any state: afterwards the receiver reads as the tree of the Go value,
    whatever it held before.  No other cell in use changes, and everything below the receiver is new. *)
Theorem C62_set_value : forall E G s l g, wf s -> live s l -> (5 <= l)%nat -> root_kept E g ->
  (forall x, g = GSc false x \/ g = GPtr (GSc false x) -> root_fit s l x) ->
  exists s', SetValue E G s l g = Ok s' /\ wf s' /\ shows (hp s') (Some l) (goal E g) /\
    (forall x, live s x -> x <> l -> hp s' x = hp s x) /\ (forall x, live s x -> live s' x) /\
    (forall x, reach (hp s') l x -> x = l \/ (x < 5)%nat \/ (~ live s x /\ live s' x)).
Proof.
  intros E G s l g W L L5 K RF. destruct (set_root E G s l g W L L5 K RF) as (s' & A1 & A2 & A3 & A4 & A5 & A6 & _). exists s'. auto 8.
Qed.
Print Assumptions C62_set_value.
(** [SetKeyvalue] with a new key: one pair is appended, which reads as the tree of the Go value.
    [c] is the cache argument. *)
Theorem C62_set_key : forall E G s l name g c, wf s -> ok_cache none_set s c -> live s l -> (5 <= l)%nat -> new_key E s l name ->
  kept E false g ->
  exists s' p, SetKeyvalue E G s l name g c = Ok s' /\ wf s' /\
    c_dt (hp s' l) = TObject /\ c_kvs (hp s' l) = c_kvs (hp s l) ++ [(name, p)] /\ shows (hp s') p (goal E g) /\
    (forall x, live s x -> x <> l -> hp s' x = hp s x) /\ (forall x, live s x -> live s' x) /\
    (forall r x, p = Some r -> reach (hp s') r x -> (x < 5)%nat \/ (~ live s x /\ live s' x)).
Proof.
  intros E G s l name g c W OC L L5 (D & UN & NK) K.
  destruct (proj1 (kept_good E g) false false K) as [T TR].
  pose proof (proj1 (main_all E G g) false false s c (DKey l name) T) as M. cbn [at_loc] in M.
  assert (RD : ready E s (DKey l name)) by (split; [exact D|split; [apply find_key_none'; exact NK|exact UN]]).
  specialize (M (conj W (conj OC (conj L L5))) RD I). rewrite TR in M. destruct M as (p & s' & Q & PL).
  exists s', p. split; [exact Q|]. split; [apply PL|]. destruct (pd_add _ _ _ _ _ _ PL) as (D' & _ & KV).
  split; [exact D'|]. split; [exact KV|]. split; [apply PL|]. pose proof (pd_fill _ _ _ _ _ _ PL) as F. cbn [at_loc] in F.
  split; [apply F|]. split; [apply F|]. intros r x -> R.
  destruct (kd_new _ _ _ _ _ (pd_kid _ _ _ _ _ _ PL r eq_refl) x R) as [Z|(_ & Z1 & Z2)]; auto.
Qed.
Print Assumptions C62_set_key.
(** [SetIndexvalue] past the end: one element is appended. *)
Theorem C62_set_index : forall E G s l i g c, wf s -> ok_cache none_set s c -> live s l -> (5 <= l)%nat ->
  c_dt (hp s l) = TArray -> zlen (c_arr (hp s l)) <= i -> kept E false g ->
  exists s' p, SetIndexvalue E G s l i g c = Ok s' /\ wf s' /\
    c_dt (hp s' l) = TArray /\ c_arr (hp s' l) = c_arr (hp s l) ++ [p] /\ shows (hp s') p (goal E g) /\
    (forall x, live s x -> x <> l -> hp s' x = hp s x) /\ (forall x, live s x -> live s' x) /\
    (forall r x, p = Some r -> reach (hp s') r x -> (x < 5)%nat \/ (~ live s x /\ live s' x)).
Proof.
  intros E G s l i g c W OC L L5 D LE K.
  destruct (proj1 (kept_good E g) false true K) as [T TR].
  pose proof (proj1 (main_all E G g) false true s c (DIdx l i) T) as M. cbn [at_loc] in M.
  specialize (M (conj W (conj OC (conj L L5))) (conj D LE) eq_refl). rewrite TR in M. destruct M as (p & s' & Q & PL).
  exists s', p. split; [exact Q|]. split; [apply PL|]. destruct (pd_add _ _ _ _ _ _ PL) as (D' & KV).
  split; [exact D'|]. split; [exact KV|]. split; [apply PL|]. pose proof (pd_fill _ _ _ _ _ _ PL) as F. cbn [at_loc] in F.
  split; [apply F|]. split; [apply F|]. intros r x -> R.
  destruct (kd_new _ _ _ _ _ (pd_kid _ _ _ _ _ _ PL r eq_refl) x R) as [Z|(_ & Z1 & Z2)]; auto.
Qed.
Print Assumptions C62_set_index.
(** A pointer to a map[string]string takes a way of its own through the code.  Below a new key, with the
    object's own cache, it gives what the map gives. *)
Theorem C62_map_pointer : forall E G s l name kvs, wf s -> live s l -> (5 <= l)%nat -> new_key E s l name -> no_clash E kvs ->
  exists s' p, SetKeyvalue E G s l name (GPtr (GMapStr kvs)) (c_own (hp s l)) = Ok s' /\ wf s' /\
    c_dt (hp s' l) = TObject /\ c_kvs (hp s' l) = c_kvs (hp s l) ++ [(name, p)] /\ shows (hp s') p (goal E (GMapStr kvs)) /\
    (forall x, live s x -> x <> l -> hp s' x = hp s x).
Proof.
  intros E G s l name kvs W L L5 NK NC.
  assert (OC : ok_cache none_set s (c_own (hp s l))) by (apply own_okc; exact W).
  destruct (C62_set_key E G s l name (GMapStr kvs) (c_own (hp s l)) W OC L L5 NK NC) as (s' & p & Q & R1 & R2 & R3 & R4 & R5 & _).
  exists s', p. split; [|auto]. exact Q.
Qed.
Print Assumptions C62_map_pointer.

(** A map with a nested struct, a slice of pointers, a time and bytes, set on an array [1, 2]. *)
Definition go_struct : goval :=
  GStruct [(bs "Name", true, false, GSc false (SStr (bs "x"))); (bs "age", false, false, GSc false (SInt 7));
           (bs "Tags", true, false, GStrs [bs "u"; bs "v"]); (bs "Next", true, false, GPtr (GStruct []))].
Definition go_sample : goval :=
  GMap [(bs "s", go_struct); (bs "t", GTime (5, 0)); (bs "b", GBytes [1; 2]);
        (bs "p", GRSlice false [GPtr (GSc false (SInt (-3))); GNilPtr false]); (bs "ok", GSc false (SBool true))].
Definition arr_ops : list op := [ONewArray; OInsert 5 0 TInt; OSetInt 6 1; OInsert 5 1 TInt; OSetInt 7 2].
Definition arr_st : st := st_of e1 g0 arr_ops.
Lemma arr_wf : wf arr_st.
Proof. apply st_of_wf; vm_compute; reflexivity. Qed.
Lemma sample_kept : root_kept e1 go_sample.
Proof.
  cbn [root_kept go_sample kept go_struct]. unfold no_clash, sc_kept.
  repeat first [split | constructor]; cbn; auto; try reflexivity; try lia; try discriminate.
Qed.
Example C62_case : wf arr_st /\ live arr_st 5 /\ root_kept e1 go_sample /\
  view 2 (hp arr_st) (Some 5%nat) = Some (VArray [VInt 0 1; VInt 0 2]) /\
  ok_map (fun s => view 5 (hp s) (Some 5%nat)) (SetValue e1 g0 arr_st 5 go_sample) = Some (Some (goal e1 go_sample)) /\
  goal e1 go_sample = VObject true
    [(bs "s", VObject true [(bs "Name", VString (bs "x")); (bs "age", VInt 0 7);
                            (bs "Tags", VArray [VString (bs "u"); VString (bs "v")]); (bs "Next", VObject false [])]);
     (bs "t", VDateTime (x_delphi e1 (5, 0))); (bs "b", VBinary 0 [1; 2]); (bs "p", VArray [VInt 0 (-3); VNull]); (bs "ok", VTrue)].
Proof.
  split; [exact arr_wf|]. split; [apply live_of; vm_compute; reflexivity|]. split; [exact sample_kept|].
  split; [vm_compute; reflexivity|]. split; vm_compute; reflexivity.
Qed.
Example C62_key_case : exists s, wf s /\ live s 5 /\ new_key e1 s 5 (bs "n") /\ kept e1 false go_sample /\
  ok_map (fun s' => view 5 (hp s') (Some 5%nat)) (SetKeyvalue e1 g0 s 5 (bs "n") go_sample None) =
    Some (Some (VObject true [(bs "a", VTrue); (bs "n", goal e1 go_sample)])).
Proof.
  exists (st_of e1 g0 [ONewObject; OSetKeyValue 5 (bs "a") (Some 0%nat)]).
  split; [apply st_of_wf; vm_compute; reflexivity|]. split; [apply live_of; vm_compute; reflexivity|].
  split; [|split; [exact sample_kept|vm_compute; reflexivity]].
  split; [vm_compute; reflexivity|]. split; [left; vm_compute; reflexivity|].
  intros k p. assert (Q : c_kvs (hp (st_of e1 g0 [ONewObject; OSetKeyValue 5 (bs "a") (Some 0%nat)]) 5) = [(bs "a", Some 0%nat)]) by (vm_compute; reflexivity).
  rewrite Q. intros [H|[]]. injection H as <- <-. vm_compute; reflexivity.
Qed.
Example C62_index_case : wf arr_st /\ live arr_st 5 /\ c_dt (hp arr_st 5) = TArray /\ zlen (c_arr (hp arr_st 5)) <= 9 /\
  ok_map (fun s' => view 5 (hp s') (Some 5%nat)) (SetIndexvalue e1 g0 arr_st 5 9 go_sample None) =
    Some (Some (VArray [VInt 0 1; VInt 0 2; goal e1 go_sample])).
Proof.
  split; [exact arr_wf|]. split; [apply live_of; vm_compute; reflexivity|]. split; [vm_compute; reflexivity|].
  split; [vm_compute; discriminate|]. vm_compute; reflexivity.
Qed.

(** *** What is not kept *)
(** Nil elements of a []interface{} vanish, and the later elements move up. *)
Theorem C62_nil_elements_refuted : forall E G s l a b, wf s -> live s l -> (5 <= l)%nat ->
  Forall (kept E false) a -> Forall (kept E false) b ->
  exists s', SetValue E G s l (GList (a ++ GNil :: b)) = Ok s' /\
    shows (hp s') (Some l) (VArray (map (goal E) a ++ map (goal E) b)) /\
    VArray (map (goal E) a ++ map (goal E) b) <> goal E (GList (a ++ GNil :: b)).
Proof.
  intros E G s l a b W L L5 KA KB.
  assert (T : tame E false false (GList (a ++ GNil :: b))).
  { cbn [tame]. apply conj_in. apply Forall_app. split.
    - apply Forall_forall. intros x X. rewrite Forall_forall in KA. apply (proj1 (kept_good E x) false true (KA _ X)).
    - constructor; [exact I|]. apply Forall_forall. intros x X. rewrite Forall_forall in KB. apply (proj1 (kept_good E x) false true (KB _ X)). }
  destruct (root_box E G s l _ TArray W L L5 T eq_refl) as (s' & v & Q & TR & GR & SH).
  exists s'. unfold SetValue. rewrite not_shared by auto. split; [exact Q|]. split.
  - cbn [tree] in TR. injection TR as <-.
    replace (map (goal E) a ++ map (goal E) b) with (gatherl (tree E false) (a ++ GNil :: b)); [exact SH|].
    assert (GA : forall z, gatherl (tree E false) (a ++ z) = map (goal E) a ++ gatherl (tree E false) z).
    { intros z. clear - KA. induction KA as [|x a K KA IH]; [reflexivity|]. cbn [app map].
      destruct (proj1 (kept_good E x) false true K) as [_ Q]. unfold gatherl at 1. rewrite Q. f_equal. exact IH. }
    rewrite GA. f_equal. change (gatherl (tree E false) (GNil :: b)) with (gatherl (tree E false) b).
    apply gatherl_map. intros x X. rewrite Forall_forall in KB. apply (proj1 (kept_good E x) false true (KB _ X)).
  - cbn [goal]. intros X. injection X as X. apply (f_equal (@List.length value)) in X.
    rewrite map_app in X. cbn [map] in X. rewrite !app_length in X. cbn [List.length] in X. rewrite map_length in X. lia.
Qed.
Print Assumptions C62_nil_elements_refuted.
(** A value of a declared type over a basic type, a pointer to a string and a nil pointer of an unlisted
    type are ignored, wherever they are to go. *)
Theorem C62_ignored_refuted : forall E G s l name c x y,
  SetKeyvalue E G s l name (GSc true x) c = Ok s /\
  SetKeyvalue E G s l name (GPtr (GSc false (SStr y))) c = Ok s /\
  SetKeyvalue E G s l name (GNilPtr false) c = Ok s /\
  SetKeyvalue E G s l name (GRMap true []) c = Ok s /\
  SetValue E G s l (GSc true x) = Ok s /\
  SetValue E G s l (GPtr (GSc false (SStr y))) = Ok s /\
  SetValue E G s l (GRMap true []) = Ok s.
Proof. intros. unfold SetValue. destruct (ReadOnly l); repeat split. Qed.
Print Assumptions C62_ignored_refuted.
(** An unexported field that is, or points to, something not of a basic kind leaves no trace; nor does
    one declared with an interface type. *)
Definition told_by_kind (x : goval) : Prop := match x with GNilPtr _ | GSc _ _ | GPtr (GSc _ _) => True | _ => False end.
Theorem C62_hidden : forall E G s name iface x fs1 fs2 d c, iface = true \/ ~ told_by_kind x ->
  assign E G false (GStruct (fs1 ++ (name, false, iface, x) :: fs2)) s d c = assign E G false (GStruct (fs1 ++ fs2)) s d c.
Proof.
  intros E G s name iface x fs1 fs2 d c H. cbn [assign]. destruct (acquire E G s d TObject c) as [[r s1]| | |]; cbn [bind]; auto.
  revert s1. induction fs1 as [|[[[k e] i] y] fs1 IH]; intros s1; cbn [app over_fields].
  - destruct iface; [reflexivity|]. destruct H as [H|N]; [discriminate|].
    destruct x; cbn [told_by_kind] in N; try reflexivity; try (destruct (N I); fail).
    match goal with |- context [match ?g with GNil => _ | _ => _ end] => destruct g end; try reflexivity; destruct (N I).
  - match goal with |- bind ?a _ = bind ?a _ => destruct a; cbn [bind]; auto end.
Qed.
Print Assumptions C62_hidden.
Example C62_hidden_case : forall E G s c, let x := GStruct [(bs "in", true, false, GSc false (SInt 1))] in ~ told_by_kind x /\
  assign E G false (GStruct [(bs "N", true, false, GSc false (SInt 7)); (bs "h", false, false, x)]) s (DRoot 5) c =
  assign E G false (GStruct [(bs "N", true, false, GSc false (SInt 7))]) s (DRoot 5) c.
Proof. intros E G s c x. split; [intros []|]. apply (C62_hidden E G s (bs "h") false x [_] []). right. intros []. Qed.
(** An unsigned field of a struct panics; so does a nil pointer in a []interface{}, although below a
    key it is ignored. *)
Theorem C62_uint_field_refuted : forall E G s l k n ex fs, (5 <= l)%nat ->
  SetValue E G s l (GStruct ((k, ex, false, GSc false (SUint n)) :: fs)) = Panic.
Proof. intros. unfold SetValue. rewrite not_shared by auto. reflexivity. Qed.
Print Assumptions C62_uint_field_refuted.
Theorem C62_nil_pointer_refuted : forall E G s l, (5 <= l)%nat ->
  SetValue E G s l (GList [GNilPtr false]) = Panic /\
  exists s', SetValue E G s l (GMap [(bs "a", GNilPtr false)]) = Ok s' /\ shows (hp s') (Some l) (VObject false []).
Proof.
  intros E G s l L5. unfold SetValue. rewrite not_shared by auto. split; [reflexivity|].
  eexists. split; [reflexivity|]. exists (VObject false []). split; [|reflexivity].
  unfold Reset. rewrite not_shared by auto. apply rep_obj_intro; cbn [set_cell hp]; rewrite upd_same; try reflexivity. constructor.
Qed.
Print Assumptions C62_nil_pointer_refuted.
(** An unsigned number above the int64 range becomes negative. *)
Theorem C62_uint_refuted : forall E G s l n, wf s -> live s l -> (5 <= l)%nat -> 2^63 <= n < 2^64 ->
  (c_dt (hp s l) = TInt -> c_ext (hp s l) = 0) ->
  exists s', SetValue E G s l (GSc false (SUint n)) = Ok s' /\ shows (hp s') (Some l) (VInt 0 (n - 2^64)).
Proof.
  intros E G s l n W L L5 R F. unfold SetValue. rewrite not_shared by auto.
  destruct (root_scalar E G s l (SUint n) (c_own (hp s l)) L5) as (s' & Q & LF); [cbn; lia|exact F|].
  exists s'. split; [exact Q|]. pose proof (lf_shows _ _ _ _ LF) as SH. cbn [sc_tree] in SH.
  replace (n - 2^64) with (to_i64 (to_u64 n)); [exact SH|]. unfold to_i64, to_u64. rewrite Z.mod_mod by lia. rewrite Z.mod_small by lia.
  destruct (Z.ltb_spec n (2^63)); lia.
Qed.
Print Assumptions C62_uint_refuted.
(** On the value itself: bytes are ignored unless it is binary already, and a time becomes a number. *)
Theorem C62_bytes_refuted : forall E G s l b, c_dt (hp s l) <> TBinary -> c_dt (hp s l) <> TExBinary ->
  SetValue E G s l (GBytes b) = Ok s.
Proof.
  intros E G s l b D1 D2. unfold SetValue. destruct (ReadOnly l); [reflexivity|]. cbn [assign]. unfold SetBinary.
  destruct (c_dt (hp s l)); try reflexivity; congruence.
Qed.
Print Assumptions C62_bytes_refuted.
Theorem C62_time_refuted : forall E G s l t, (5 <= l)%nat -> is_dbl (c_dt (hp s l)) = false ->
  exists s', SetValue E G s l (GTime t) = Ok s' /\ shows (hp s') (Some l) (VDouble (x_delphi E t)).
Proof.
  intros E G s l t L5 D. unfold SetValue. rewrite not_shared by auto. cbn [assign]. eexists. split; [reflexivity|].
  unfold SetDouble. rewrite not_shared by auto. rewrite D. unfold Reset. rewrite not_shared by auto.
  cbn [set_cell hp]. rewrite upd_same.
  apply (leaf_shows (set_cell s l (reset_cell (hp s l) TDouble)) l (w_sv (reset_cell (hp s l) TDouble) (x_delphi E t)) (VDouble (x_delphi E t)));
    [apply rep_dbl; reflexivity|intros y Y; exact Y|reflexivity].
Qed.
Print Assumptions C62_time_refuted.
(** Setting a map below a key that holds an object keeps the old pairs, and setting a slice keeps the
    old tail: [{"a":{"x":true}}] with [a := {"y":false}], and [[1,2]] with [0 := [9]]. *)
Definition keep_ops : list op :=
  [ONewObject; OSetKey 5 (bs "a") TObject; OSetKeyValue 6 (bs "x") (Some 0%nat);
   OSetKey 5 (bs "b") TArray; OInsert 14 0 TInt; OSetInt 22 1; OInsert 14 1 TInt; OSetInt 23 2].
Definition keep_st : st := st_of e1 g0 keep_ops.
Theorem C62_existing_key_refuted : wf keep_st /\ exists s1 s2,
  SetKeyvalue e1 g0 keep_st 5 (bs "a") (GMap [(bs "y", GSc false (SBool false))]) None = Ok s1 /\
  SetKeyvalue e1 g0 s1 5 (bs "b") (GList [GSc false (SInt 9)]) None = Ok s2 /\
  rep (hp s2) (Some 5%nat) (VObject true [(bs "a", VObject true [(bs "x", VTrue); (bs "y", VFalse)]); (bs "b", VArray [VInt 0 9; VInt 0 2])]).
Proof.
  split; [apply st_of_wf; vm_compute; reflexivity|].
  destruct (ok_ex (fun p : st * st => view 4 (hp (snd p)) (Some 5%nat))
    (do s1 <- SetKeyvalue e1 g0 keep_st 5 (bs "a") (GMap [(bs "y", GSc false (SBool false))]) None;
     do s2 <- SetKeyvalue e1 g0 s1 5 (bs "b") (GList [GSc false (SInt 9)]) None; Ok (s1, s2))
    (Some (VObject true [(bs "a", VObject true [(bs "x", VTrue); (bs "y", VFalse)]); (bs "b", VArray [VInt 0 9; VInt 0 2])])))
    as ([s1 s2] & Q & V); [vm_compute; reflexivity|].
  apply bind_ok in Q as (a1 & A1 & Q). apply bind_ok in Q as (a2 & A2 & Q). injection Q as -> ->.
  exists s1, s2. split; [exact A1|]. split; [exact A2|]. apply (view_rep 4). exact V.
Qed.
Print Assumptions C62_existing_key_refuted.

(** ** C48 *)
(** [SetValue] with two orders of iteration of the same Go value, at any depth: both calls return, and
    either nothing distinguishes the states or the trees differ in the order of pairs only.
    [root_tame]: the import does not panic and no two keys of a map are the same for the library. *)
Theorem C48_set_value : forall E G s l g g', wf s -> live s l -> (5 <= l)%nat -> root_tame E g -> gperm g g' ->
  exists s1 s2, SetValue E G s l g = Ok s1 /\ SetValue E G s l g' = Ok s2 /\
    (s1 = s2 \/ exists v1 v2, shows (hp s1) (Some l) v1 /\ shows (hp s2) (Some l) v2 /\ vperm v1 v2).
Proof.
  intros E G s l g g' W L L5 T P. unfold SetValue. rewrite !not_shared by auto.
  assert (BX : forall a b t, box a = Some t -> box b = Some t -> tame E false false a -> gperm a b ->
    exists s1 s2, assign E G false a s (DRoot l) (c_own (hp s l)) = Ok s1 /\
      assign E G false b s (DRoot l) (c_own (hp s l)) = Ok s2 /\
      (s1 = s2 \/ exists v1 v2, shows (hp s1) (Some l) v1 /\ shows (hp s2) (Some l) v2 /\ vperm v1 v2)).
  { intros a b t BA BB TA PAB. pose proof (proj1 (perm_tame E a) b false false PAB TA) as TB.
    destruct (root_box E G s l a t W L L5 TA BA) as (s1 & v1 & Q1 & T1 & _ & H1).
    destruct (root_box E G s l b t W L L5 TB BB) as (s2 & v2 & Q2 & T2 & _ & H2).
    exists s1, s2. split; [exact Q1|]. split; [exact Q2|]. right. exists v1, v2. split; [exact H1|]. split; [exact H2|].
    pose proof (proj1 (perm_tree E a) b false PAB) as PT. rewrite T1, T2 in PT. exact PT. }
  assert (SAME : forall a, (exists s1, assign E G false a s (DRoot l) (c_own (hp s l)) = Ok s1) ->
    exists s1 s2, assign E G false a s (DRoot l) (c_own (hp s l)) = Ok s1 /\
      assign E G false a s (DRoot l) (c_own (hp s l)) = Ok s2 /\
      (s1 = s2 \/ exists v1 v2, shows (hp s1) (Some l) v1 /\ shows (hp s2) (Some l) v2 /\ vperm v1 v2)).
  { intros a (s1 & Q). exists s1, s1. auto. }
  assert (OKS : forall a, tame E false false a -> exists s1, assign E G false a s (DRoot l) (c_own (hp s l)) = Ok s1).
  { assert (OK1 : forall a, tame E false false a -> (forall a', a <> GPtr a') -> exists s1, assign E G false a s (DRoot l) (c_own (hp s l)) = Ok s1).
    { intros a TA NP. destruct (box a) as [t|] eqn:B.
      - destruct (root_box E G s l a t W L L5 TA B) as (s1 & v1 & Q1 & _). eauto.
      - destruct a as [|n y|t|b|m|m|m|a|a|f1|i1 m|i1 a|a'|b1|]; cbn [box] in B; try discriminate B; try (eexists; reflexivity).
        + destruct n; eexists; reflexivity.
        + destruct m; [eexists; reflexivity|discriminate].
        + destruct (NP a' eq_refl).
        + destruct TA as [TA|[-> _]]; [discriminate|eexists; reflexivity]. }
    intros a TA. destruct a as [|n y|t|b|m|m|m|a|a|f1|i1 m|i1 a|a'|b1|]; try (apply OK1; [exact TA|intros; discriminate]).
    cbn [assign]. destruct (ptr_ignored a') eqn:PI; [eexists; reflexivity|]. cbn [tame] in TA. rewrite PI in TA.
    destruct a' as [|n y|t|b|m|m|m|a|a|f1|i1 m|i1 a|a'|b1|]; try discriminate PI; try (destruct TA; fail); apply OK1; auto; intros; discriminate. }
  assert (TOP : forall a b, tame E false false a -> (forall a', a <> GPtr a') -> gperm a b ->
    exists s1 s2, assign E G false a s (DRoot l) (c_own (hp s l)) = Ok s1 /\
      assign E G false b s (DRoot l) (c_own (hp s l)) = Ok s2 /\
      (s1 = s2 \/ exists v1 v2, shows (hp s1) (Some l) v1 /\ shows (hp s2) (Some l) v2 /\ vperm v1 v2)).
  { intros a b TA NP PAB. pose proof PAB as PAB'. inversion PAB'; subst; try (apply SAME; auto; fail);
      try (eapply BX; [reflexivity|reflexivity|exact TA|exact PAB]).
    - destruct kvs as [|kv0 kvs].
      + match goal with H : Forall2 _ [] _ |- _ => inversion H; subst end.
        match goal with H : Permutation [] _ |- _ => apply Permutation_nil in H; subst end. apply SAME; auto.
      + destruct kvs' as [|kv1 kvs'].
        * match goal with H : Permutation _ [] |- _ => apply Permutation_sym, Permutation_nil in H; subst end.
          match goal with H : Forall2 _ _ [] |- _ => inversion H end.
        * eapply BX; [reflexivity|reflexivity|exact TA|exact PAB].
    - destruct (NP _ eq_refl). }
  destruct g as [|n y|t|b|m|m|m|a|a|f1|i1 m|i1 a|g0|b1|]; try (apply TOP; [exact T|intros; discriminate|exact P]).
  inversion P; subst.
  - apply SAME. destruct g0; try (apply OKS; exact T). cbn [assign ptr_ignored].
    destruct (root_box E G s l (GMapStr kvs) TObject W L L5 T eq_refl) as (s1 & v1 & Q1 & _). exists s1. exact Q1.
  - match goal with H : gperm g0 _ |- _ => rename H into P0 end. cbn [assign]. rewrite <- (ignored_perm _ _ P0).
    destruct (ptr_ignored g0) eqn:PI; [exists s, s; auto|].
    assert (T0 : tame E false false g0).
    { cbn [root_tame tame] in T. rewrite PI in T. destruct g0; try discriminate PI; exact T. }
    pose proof (TOP g0 g'0 T0) as TP. assert (NP : forall a', g0 <> GPtr a') by (intros a' ->; discriminate PI).
    specialize (TP NP P0). destruct g0; destruct g'0; try exact TP; try (inversion P0; fail).
Qed.
Print Assumptions C48_set_value.
(** The same below a new key. *)
Theorem C48_set_key : forall E G s l name g g' c, wf s -> ok_cache none_set s c -> live s l -> (5 <= l)%nat ->
  new_key E s l name -> tame E false false g -> gperm g g' ->
  (SetKeyvalue E G s l name g c = Ok s /\ SetKeyvalue E G s l name g' c = Ok s) \/
  exists s1 s2 p q v1 v2, SetKeyvalue E G s l name g c = Ok s1 /\ SetKeyvalue E G s l name g' c = Ok s2 /\
    c_kvs (hp s1 l) = c_kvs (hp s l) ++ [(name, p)] /\ c_kvs (hp s2 l) = c_kvs (hp s l) ++ [(name, q)] /\
    shows (hp s1) p v1 /\ shows (hp s2) q v2 /\ vperm v1 v2.
Proof.
  intros E G s l name g g' c W OC L L5 (D & UN & NK) T P.
  assert (RD : ready E s (DKey l name)) by (split; [exact D|split; [apply find_key_none'; exact NK|exact UN]]).
  pose proof (proj1 (perm_tame E g) g' false false P T) as T'.
  pose proof (proj1 (main_all E G g) false false s c (DKey l name) T (conj W (conj OC (conj L L5))) RD I) as M1.
  pose proof (proj1 (main_all E G g') false false s c (DKey l name) T' (conj W (conj OC (conj L L5))) RD I) as M2.
  pose proof (proj1 (perm_tree E g) g' false P) as PT.
  destruct (tree E false g) as [v1|], (tree E false g') as [v2|]; cbn [opt_perm does] in *; try (destruct PT; fail).
  - destruct M1 as (p & s1 & Q1 & P1), M2 as (q & s2 & Q2 & P2). right. exists s1, s2, p, q, v1, v2.
    split; [exact Q1|]. split; [exact Q2|]. split; [apply (pd_add _ _ _ _ _ _ P1)|]. split; [apply (pd_add _ _ _ _ _ _ P2)|].
    split; [apply P1|]. split; [apply P2|exact PT].
  - left. auto.
Qed.
Print Assumptions C48_set_key.
(** The keys of a Go map are distinct; without IgnoreCase that is all the condition asks for. *)
Theorem C48_distinct_keys : forall E (A : Type) (kvs : list (bytes * A)), ignore_case E = false -> NoDup (map fst kvs) -> no_clash E kvs.
Proof.
  intros E A kvs IC. induction kvs as [|[k x] kvs IH]; cbn [map fst]; intros ND; [constructor|]. inversion ND as [|? ? H1 H2]; subst.
  constructor; [|apply IH; exact H2]. apply Forall_forall. intros [k' x'] I. cbn [fst]. unfold key_match. rewrite IC. cbn [andb orb].
  assert (k <> k') by (intros ->; apply H1; apply (in_map fst) in I; exact I).
  split; (destruct (beq _ _) eqn:Q; [apply beq_eq in Q; congruence|reflexivity]).
Qed.
Print Assumptions C48_distinct_keys.

Definition order1 : goval := GMap [(bs "a", GMapInt [(bs "x", 1); (bs "y", 2)]); (bs "b", GStrs [bs "s"])].
Definition order2 : goval := GMap [(bs "b", GStrs [bs "s"]); (bs "a", GMapInt [(bs "y", 2); (bs "x", 1)])].
Example C48_case : wf arr_st /\ live arr_st 5 /\ root_tame e1 order1 /\ gperm order1 order2 /\
  ok_map (fun s => view 4 (hp s) (Some 5%nat)) (SetValue e1 g0 arr_st 5 order1) = Some (Some
    (VObject true [(bs "a", VObject true [(bs "x", VInt 0 1); (bs "y", VInt 0 2)]); (bs "b", VArray [VString (bs "s")])])) /\
  ok_map (fun s => view 4 (hp s) (Some 5%nat)) (SetValue e1 g0 arr_st 5 order2) = Some (Some
    (VObject true [(bs "b", VArray [VString (bs "s")]); (bs "a", VObject true [(bs "y", VInt 0 2); (bs "x", VInt 0 1)])])).
Proof.
  split; [exact arr_wf|]. split; [apply live_of; vm_compute; reflexivity|]. split.
  { cbn [root_tame tame order1]. unfold no_clash. repeat first [split | constructor]; cbn; auto; lia. }
  split; [|split; vm_compute; reflexivity].
  eapply gp_map; [|apply perm_swap]. constructor; [split; [reflexivity|]|].
  - apply gp_mapint. apply perm_swap.
  - constructor; [split; constructor|constructor].
Qed.

(** With IgnoreCase, two keys that differ in case only are one key of the object, and the value is the
    one iterated last. *)
Theorem C48_ignorecase_refuted : exists s1 s2,
  gperm (GMapInt [(bs "a", 1); (bs "A", 2)]) (GMapInt [(bs "A", 2); (bs "a", 1)]) /\ NoDup [bs "a"; bs "A"] /\
  SetValue e1 g0 arr_st 5 (GMapInt [(bs "a", 1); (bs "A", 2)]) = Ok s1 /\
  SetValue e1 g0 arr_st 5 (GMapInt [(bs "A", 2); (bs "a", 1)]) = Ok s2 /\
  rep (hp s1) (Some 5%nat) (VObject true [(bs "a", VInt 0 2)]) /\ rep (hp s2) (Some 5%nat) (VObject true [(bs "A", VInt 0 1)]).
Proof.
  destruct (ok_ex (fun s => view 4 (hp s) (Some 5%nat)) (SetValue e1 g0 arr_st 5 (GMapInt [(bs "a", 1); (bs "A", 2)]))
    (Some (VObject true [(bs "a", VInt 0 2)]))) as (s1 & Q1 & V1); [vm_compute; reflexivity|].
  destruct (ok_ex (fun s => view 4 (hp s) (Some 5%nat)) (SetValue e1 g0 arr_st 5 (GMapInt [(bs "A", 2); (bs "a", 1)]))
    (Some (VObject true [(bs "A", VInt 0 1)]))) as (s2 & Q2 & V2); [vm_compute; reflexivity|].
  exists s1, s2. split; [apply gp_mapint; apply perm_swap|].
  split; [constructor; [intros [H|[]]; vm_compute in H; discriminate|constructor; [intros []|constructor]]|].
  split; [exact Q1|]. split; [exact Q2|]. split; [apply (view_rep 4); exact V1|apply (view_rep 4); exact V2].
Qed.
Print Assumptions C48_ignorecase_refuted.
