(** Properties C95 and C96: importing Go values with [EncodeToDxValue] methods and with [DxValue]s. *)
From Coq Require Import String.
From Verif Require Import Base Values Tactics Env0 HeapMerge HeapModel MsgLoadModel ReflectModel HeapSpec MsgLoadSpec ReflectSpec HeapBase HeapConf
  HeapGet HeapCalls HeapClone HeapCopy HeapMap HeapBuild ReflectThms ReflectPerm ReflectRoot MarshalModel CopyThms MarshalerModel MarshalerSpec MarshalerThms HeapView
  Properties_Map Properties_Merge Properties_Reflect.

(** ** C95 *)
(** [X] can be lent to a call on [l]: the constants and values in use with all below them, without [l]. *)
Definition lends (s : st) (X : nat -> Prop) (l : nat) : Prop :=
  (forall x, (x < 5)%nat -> X x) /\ (forall x y, X x -> sees (hp s x) y -> X y) /\ (forall x, X x -> live s x) /\ ~ X l.
Lemma lends_lent s X l : lends s X l -> lent X (hp s) s.
Proof. intros (_ & _ & A & _) x Z. split; [apply A; exact Z|reflexivity]. Qed.
(** The least that can be lent: where no [DxValue] occurs. *)
Lemma lends_none s l : wf s -> (5 <= l)%nat -> lends s (fun x => (x < 5)%nat) l.
Proof.
  intros W L5. split; [auto|]. split; [|split; [|lia]].
  - intros x y L S. exfalso. unfold sees in S. rewrite (i_const _ _ _ W x L) in S.
    do 5 (destruct x as [|x]; [destruct S|]). lia.
  - intros x L. apply (const_live (fun n => n)); auto.
Qed.

(** [SetValue] with a map, slice or struct in which values with methods and [DxValue]s may occur at any
    depth ([mkept], MarshalerSpec.v), for any methods that keep to their own value ([writes]): the receiver
    becomes the tree of the Go value, in which each value with a method is what the method makes and each
    [DxValue] is itself.  No other value in use changes, and everything below the receiver is new or lent. *)
Theorem C95_set_value : forall E G run says X dx fuel s l x, wf s -> live s l -> (5 <= l)%nat -> lends s X l ->
  boxed x -> mkept E run says X (hp s) dx false x ->
  exists s', MSetValue E G run fuel s l x = Ok s' /\ wf s' /\ shows (hp s') (Some l) (mgoal E says dx x) /\
    (forall z, live s z -> z <> l -> hp s' z = hp s z) /\ (forall z, live s z -> live s' z) /\
    (forall z, reach (hp s') l z -> z = l \/ X z \/ (~ live s z /\ live s' z)).
Proof.
  intros E G run says X dx fuel s l x W L L5 LE B K.
  assert (Q0 : MSetValue E G run fuel s l x = massign E G run false x s (DRoot l) (c_own (hp s l))).
  { unfold MSetValue. rewrite not_shared by auto. destruct x; try reflexivity; destruct B. }
  destruct (root_bred E G X (hp s) (proj1 LE) (proj1 (proj2 LE)) run says dx s l x W L L5 (lends_lent s X l LE) (proj2 (proj2 (proj2 LE))) K B)
    as (s' & t & Q & BR & SH).
  destruct (bred_effect X s l t s' W L L5 BR) as (A1 & _ & A2 & A3 & A4). exists s'. rewrite Q0. auto 8.
Qed.
Print Assumptions C95_set_value.
(** [SetKeyvalue] with a new key: one pair is appended. *)
Theorem C95_set_key : forall E G run says X dx s l name x c, wf s -> ok_cache none_set s c -> live s l -> (5 <= l)%nat -> lends s X l ->
  new_key E s l name -> mkept E run says X (hp s) dx false x ->
  exists s' p, MSetKeyvalue E G run s l name x c = Ok s' /\ wf s' /\
    c_dt (hp s' l) = TObject /\ c_kvs (hp s' l) = c_kvs (hp s l) ++ [(name, p)] /\ shows (hp s') p (mgoal E says dx x) /\
    (forall z, live s z -> z <> l -> hp s' z = hp s z) /\ (forall z, live s z -> live s' z) /\
    (forall r z, p = Some r -> reach (hp s') r z -> X z \/ (~ live s z /\ live s' z)).
Proof.
  intros E G run says X dx s l name x c W OC L L5 LE (D & UN & NK) K.
  assert (RD : ready E s (DKey l name)) by (split; [exact D|split; [apply find_key_none'; exact NK|exact UN]]).
  assert (F : fit X (hp s) s c l) by (split; [exact (conj W (conj OC (conj L L5)))|split; [apply (lends_lent s X l LE)|apply LE]]).
  destruct (proj1 (mmain_all E G X (hp s) (proj1 LE) (proj1 (proj2 LE)) run says dx x) false s c (DKey l name) K F RD) as (p & s' & Q & [W' [A1 A2 _] KX AD SH]).
  exists s', p. destruct AD as (D' & _ & KV). split; [exact Q|]. split; [exact W'|]. split; [exact D'|]. split; [exact KV|].
  split; [exact SH|]. split; [exact A2|]. split; [exact A1|]. intros r z -> R. destruct (KX r eq_refl z R) as [Z|(_ & Z1 & Z2)]; auto.
Qed.
Print Assumptions C95_set_key.
(** [SetIndexvalue] past the end: one element is appended. *)
Theorem C95_set_index : forall E G run says X dx s l i x c, wf s -> ok_cache none_set s c -> live s l -> (5 <= l)%nat -> lends s X l ->
  c_dt (hp s l) = TArray -> zlen (c_arr (hp s l)) <= i -> mkept E run says X (hp s) dx false x ->
  exists s' p, MSetIndexvalue E G run s l i x c = Ok s' /\ wf s' /\
    c_dt (hp s' l) = TArray /\ c_arr (hp s' l) = c_arr (hp s l) ++ [p] /\ shows (hp s') p (mgoal E says dx x) /\
    (forall z, live s z -> z <> l -> hp s' z = hp s z) /\ (forall z, live s z -> live s' z) /\
    (forall r z, p = Some r -> reach (hp s') r z -> X z \/ (~ live s z /\ live s' z)).
Proof.
  intros E G run says X dx s l i x c W OC L L5 LE D LN K.
  assert (F : fit X (hp s) s c l) by (split; [exact (conj W (conj OC (conj L L5)))|split; [apply (lends_lent s X l LE)|apply LE]]).
  destruct (proj1 (mmain_all E G X (hp s) (proj1 LE) (proj1 (proj2 LE)) run says dx x) false s c (DIdx l i) K F (conj D LN)) as (p & s' & Q & [W' [A1 A2 _] KX AD SH]).
  exists s', p. destruct AD as (D' & KV). split; [exact Q|]. split; [exact W'|]. split; [exact D'|]. split; [exact KV|].
  split; [exact SH|]. split; [exact A2|]. split; [exact A1|]. intros r z -> R. destruct (KX r eq_refl z R) as [Z|(_ & Z1 & Z2)]; auto.
Qed.
Print Assumptions C95_set_index.
(** Methods that call [SetValue] with a Go value that is kept are such methods. *)
Theorem C95_set_value_method : forall E G g, root_kept E g -> writes (fun s x => SetValue E G s x g) (goal E g).
Proof. exact writes_set_value. Qed.
Print Assumptions C95_set_value_method.
(** So a method may import a value with methods in its turn. *)
Theorem C95_nested_method : forall E G run says dx fuel x, boxed x -> (forall h, mkept E run says (fun z => (z < 5)%nat) h dx false x) ->
  writes (fun s l => MSetValue E G run fuel s l x) (mgoal E says dx x).
Proof.
  intros E G run says dx fuel x B K s l W L L5 _. pose proof (lends_none s l W L5) as LE.
  assert (Q0 : MSetValue E G run fuel s l x = massign E G run false x s (DRoot l) (c_own (hp s l))).
  { unfold MSetValue. rewrite not_shared by auto. destruct x; try reflexivity; destruct B. }
  destruct (root_bred E G _ (hp s) (proj1 LE) (proj1 (proj2 LE)) run says dx s l x W L L5 (lends_lent s _ l LE) (proj2 (proj2 (proj2 LE))) (K _) B)
    as (s' & t & Q & BR & SH).
  destruct (bred_effect _ s l t s' W L L5 BR) as (A1 & A0 & A2 & A3 & A4). exists s'. rewrite Q0. auto 8.
Qed.
Print Assumptions C95_nested_method.
(** On the value itself, [SetValue] is the method: nothing is reset before. *)
Theorem C95_receiver : forall E G run fuel s l n x p, (5 <= l)%nat ->
  MSetValue E G run fuel s l (MObj false n x) = run n s l /\ MSetValue E G run fuel s l (MPtr (MObj p n x)) = run n s l.
Proof. intros. unfold MSetValue. rewrite not_shared by auto. split; reflexivity. Qed.
Print Assumptions C95_receiver.
(** Without methods the calls are those of C62. *)
Theorem C95_plain : forall E G run fuel s l g, MSetValue E G run fuel s l (MPlain g) = SetValue E G s l g.
Proof. reflexivity. Qed.
Print Assumptions C95_plain.

(** An unexported field whose value, or what it points to, is not of a basic kind leaves no trace,
    whatever methods it has; nor does one declared with an interface type. *)
Definition nothing (x : mval) : Prop := match x with MNilPtr _ _ | MDx None | MPlain (GNilPtr _) => True | _ => False end.
Definition basic_kind (x : mval) : Prop :=
  match x with
  | MPlain (GPtr (GSc _ _)) => True
  | MPtr x' => by_kind x' <> None
  | _ => by_kind x <> None
  end.
Theorem C95_hidden : forall E G run s name iface x fs1 fs2 d c, iface = true \/ (~ nothing x /\ ~ basic_kind x) ->
  massign E G run false (MStruct (fs1 ++ (name, false, iface, x) :: fs2)) s d c = massign E G run false (MStruct (fs1 ++ fs2)) s d c.
Proof.
  intros E G run s name iface x fs1 fs2 d c H. cbn [massign]. destruct (acquire E G s d TObject c) as [[r s1]| | |]; cbn [bind]; auto.
  revert s1. induction fs1 as [|[[[k e] i] y] fs1 IH]; intros s1; cbn [app over_named].
  - destruct iface; [reflexivity|]. destruct H as [H|[NN NB]]; [discriminate|].
    destruct x as [g|p m x|x|p m|kvs|a|fs|i kvs|i a|[q|]|q]; cbn [nothing basic_kind by_kind] in *; try reflexivity; try (destruct (NN I); fail).
    + unfold assign_field. destruct g; try reflexivity; try (destruct (NN I); fail); try (exfalso; apply NB; discriminate).
      match goal with |- context [match ?g with GNil => _ | _ => _ end] => destruct g end; try reflexivity; destruct (NB I).
    + destruct (by_kind x); [exfalso; apply NB; discriminate|reflexivity].
    + destruct (by_kind x); [exfalso; apply NB; discriminate|reflexivity].
  - match goal with |- bind ?a _ = bind ?a _ => destruct a; cbn [bind]; auto end.
Qed.
Print Assumptions C95_hidden.
(** A hidden pointer to a struct beside a visible number. *)
Example C95_hidden_case : forall run s, let x := MPlain (GPtr (GStruct [])) in ~ nothing x /\ ~ basic_kind x /\
  massign e1 g0 run false (MStruct [(bs "h", false, false, x); (bs "N", true, false, MPlain (GSc false (SInt 7)))]) s (DRoot 5) None =
  massign e1 g0 run false (MStruct [(bs "N", true, false, MPlain (GSc false (SInt 7)))]) s (DRoot 5) None.
Proof. intros run s x. split; [intros []|]. split; [cbn; tauto|]. apply (C95_hidden e1 g0 run s (bs "h") false x []). right. split; [intros []|cbn; tauto]. Qed.

(** *** Methods that are not called *)
(** A field that is a pointer, of a type whose method has a pointer as receiver: the method is not
    called, for no choice of methods, and the field is imported as if its type had none.  So for the
    elements of a typed map and of a typed slice. *)
Theorem C95_pointer_field_refuted : forall E G run s l name ex n x fs1 fs2 d c, by_kind x = None -> (forall y, x <> MPtr y) -> (forall g, x <> MPlain g) ->
  (forall p m, x <> MNilPtr p m) -> (forall p, x <> MDx p) ->
  massign E G run false (MStruct (fs1 ++ (name, ex, false, MPtr (MObj true n x)) :: fs2)) s d c =
  massign E G run false (MStruct (fs1 ++ (name, ex, false, x) :: fs2)) s d c /\
  massign E G run false (MRMap false [(name, MPtr (MObj true n x))]) s d c = massign E G run false (MRMap false [(name, x)]) s d c /\
  massign E G run false (MRSlice false [MPtr (MObj true n (MStruct fs2))]) s (DRoot l) c =
  massign E G run false (MRSlice false [MStruct fs2]) s (DRoot l) c.
Proof.
  intros E G run s l name ex n x fs1 fs2 d c BK NP NG NN ND. split; [|split].
  - cbn [massign]. destruct (acquire E G s d TObject c) as [[r s1]| | |]; cbn [bind]; auto.
    revert s1. induction fs1 as [|[[[k e] i] y] fs1 IH]; intros s1; cbn [app over_named].
    + cbn [by_kind massign]. rewrite BK.
      destruct x as [g|p m x|x|p m|kvs|a|fs|i kvs|i a|q|q]; try (destruct (NP _ eq_refl); fail); try (destruct (NG _ eq_refl); fail);
        try (destruct (NN _ _ eq_refl); fail); try (destruct (ND _ eq_refl); fail); try reflexivity; rewrite BK; reflexivity.
    + match goal with |- bind ?a _ = bind ?a _ => destruct a; cbn [bind]; auto end.
  - cbn [massign]. destruct (acquire E G s d TObject c) as [[r s1]| | |]; cbn [bind]; auto. cbn [over_keys by_kind]. rewrite BK.
    destruct x as [g|p m x|x|p m|kvs|a|fs|i kvs|i a|q|q]; try (destruct (NP _ eq_refl); fail); try (destruct (NG _ eq_refl); fail);
        try (destruct (NN _ _ eq_refl); fail); try (destruct (ND _ eq_refl); fail); try reflexivity; rewrite BK; reflexivity.
  - reflexivity.
Qed.
Print Assumptions C95_pointer_field_refuted.
(** A field of a type declared over a basic type is stored as the basic value, whatever its method. *)
Theorem C95_kind_field_refuted : forall E G run s name ex p n b y d c,
  massign E G run false (MStruct [(name, ex, false, MObj p n (MPlain (GSc b y)))]) s d c =
    assign E G false (GStruct [(name, ex, false, GSc b y)]) s d c /\
  massign E G run false (MStruct [(name, ex, false, MPtr (MObj p n (MPlain (GSc b y))))]) s d c =
    assign E G false (GStruct [(name, ex, false, GSc b y)]) s d c.
Proof. intros. split; reflexivity. Qed.
Print Assumptions C95_kind_field_refuted.
(** A nil pointer: below a key its method is called (and panics if it takes the value), in a field of its
    own type it panics, in a typed slice it becomes null. *)
Theorem C95_nil_refuted : forall E G run fuel s l name ex n c k, (5 <= l)%nat ->
  MSetKeyvalue E G run s l k (MNilPtr true n) c = call E G run n s (DKey l k) c /\
  MSetKeyvalue E G run s l k (MNilPtr false n) c = Panic /\
  MSetValue E G run fuel s l (MStruct [(name, ex, false, MNilPtr true n)]) = Panic /\
  MSetValue E G run fuel s l (MRSlice false [MNilPtr true n]) = SetValue E G s l (GRSlice false [GNilPtr false]).
Proof. intros. unfold MSetValue, SetValue. rewrite !not_shared by auto. repeat split; reflexivity. Qed.
Print Assumptions C95_nil_refuted.

(** ** Examples *)
(** The method of value_test.go:111-115: [Reset(VT_Object)] and two texts.  [ValueCache()], which no
    call here changes, is read once. *)
Definition std_kvs : list (bytes * bytes) := [(bs "TimeOut", bs "1h3m24s"); (bs "Age", bs "3岁")].
Definition std_method (s : st) (x : nat) : res st :=
  let s1 := Reset s x TObject in
  let c := c_own (hp s x) in
  do (r, s2) <- SetKeyCached e1 g0 s1 x (bs "TimeOut") TString c;
  do (r', s3) <- SetKeyCached e1 g0 (SetString s2 r (bs "1h3m24s")) x (bs "Age") TString c;
  Ok (SetString s3 r' (bs "3岁")).
(** One that adds a pair and resets nothing. *)
Definition add_method (s : st) (x : nat) : res st := Ok (SetKeyValue e1 g0 s x (bs "n") (Some 0%nat)).
Definition runs (n : nat) : st -> nat -> res st :=
  match n with
  | O => fun s x => SetValue e1 g0 s x (GMapStr std_kvs)
  | 1%nat => fun s x => SetValue e1 g0 s x (GStrs [bs "m"])
  | 2%nat => std_method
  | _ => add_method
  end.
Definition says1 (n : nat) : value := match n with O => goal e1 (GMapStr std_kvs) | _ => goal e1 (GStrs [bs "m"]) end.
Definition dx0 (_ : nat) : value := VNilP.
Definition m_struct : mval := MStruct [(bs "A", true, false, MPlain (GSc false (SInt 1)))].
Definition m_sample : mval :=
  MMap [(bs "v", MObj false 0 m_struct); (bs "p", MPtr (MObj true 1 m_struct)); (bs "bare", MObj true 1 m_struct);
        (bs "s", MStruct [(bs "X", true, false, MObj false 0 m_struct); (bs "Y", true, false, MPtr (MObj false 0 m_struct));
                          (bs "Z", true, true, MPtr (MObj true 1 m_struct)); (bs "age", false, false, MPlain (GSc false (SInt 7)))]);
        (bs "l", MRSlice false [MPtr (MObj false 1 m_struct)])].
Lemma m_sample_kept : mkept e1 runs says1 (fun x => (x < 5)%nat) (hp arr_st) dx0 false m_sample.
Proof.
  assert (W0 : writes (runs 0) (says1 0)).
  { apply C95_set_value_method. cbn [root_kept kept]. unfold no_clash. repeat constructor. }
  assert (W1 : writes (runs 1) (says1 1)) by (apply C95_set_value_method; exact I).
  cbn [mkept m_sample m_struct kept]. unfold no_clash, sc_kept.
  repeat first [exact W0 | exact W1 | split | constructor | intros]; cbn; auto; try reflexivity; try lia; try discriminate.
Qed.
Example C95_case : wf arr_st /\ live arr_st 5 /\ lends arr_st (fun x => (x < 5)%nat) 5 /\ boxed m_sample /\ mkept e1 runs says1 (fun x => (x < 5)%nat) (hp arr_st) dx0 false m_sample /\
  ok_map (fun s => view 6 (hp s) (Some 5%nat)) (MSetValue e1 g0 runs 0 arr_st 5 m_sample) = Some (Some (mgoal e1 says1 dx0 m_sample)) /\
  mgoal e1 says1 dx0 m_sample =
    let std := VObject true [(bs "TimeOut", VString (bs "1h3m24s")); (bs "Age", VString (bs "3岁"))] in
    let m := VArray [VString (bs "m")] in
    VObject true [(bs "v", std); (bs "p", m); (bs "bare", VObject true [(bs "A", VInt 0 1)]);
      (bs "s", VObject true [(bs "X", std); (bs "Y", std); (bs "Z", m); (bs "age", VInt 0 7)]); (bs "l", VArray [m])].
Proof.
  split; [exact arr_wf|]. split; [apply live_of; vm_compute; reflexivity|]. split; [apply lends_none; [exact arr_wf|lia]|].
  split; [exact I|]. split; [exact m_sample_kept|].
  split; vm_compute; reflexivity.
Qed.
Example C95_index_case : wf arr_st /\ live arr_st 5 /\ c_dt (hp arr_st 5) = TArray /\ zlen (c_arr (hp arr_st 5)) <= 9 /\
  ok_map (fun s' => view 7 (hp s') (Some 5%nat)) (MSetIndexvalue e1 g0 runs arr_st 5 9 m_sample None) =
    Some (Some (VArray [VInt 0 1; VInt 0 2; mgoal e1 says1 dx0 m_sample])).
Proof.
  split; [exact arr_wf|]. split; [apply live_of; vm_compute; reflexivity|]. split; [vm_compute; reflexivity|].
  split; [vm_compute; discriminate|]. vm_compute; reflexivity.
Qed.
Definition obj_a : st := st_of e1 g0 [ONewObject; OSetKeyValue 5 (bs "a") (Some 0%nat)].
Example C95_key_case : wf obj_a /\ live obj_a 5 /\ new_key e1 obj_a 5 (bs "k") /\
  ok_map (fun s' => view 7 (hp s') (Some 5%nat)) (MSetKeyvalue e1 g0 runs obj_a 5 (bs "k") m_sample None) =
    Some (Some (VObject true [(bs "a", VTrue); (bs "k", mgoal e1 says1 dx0 m_sample)])).
Proof.
  split; [apply st_of_wf; vm_compute; reflexivity|]. split; [apply live_of; vm_compute; reflexivity|].
  split; [|vm_compute; reflexivity].
  split; [vm_compute; reflexivity|]. split; [left; vm_compute; reflexivity|].
  intros k p. assert (Q : c_kvs (hp obj_a 5) = [(bs "a", Some 0%nat)]) by (vm_compute; reflexivity).
  rewrite Q. intros [H|[]]. injection H as <- <-. vm_compute; reflexivity.
Qed.
(** The method of the test file, written out, is [SetValue] of a map of texts. *)
Example C95_test_method : forall s x, (5 <= x)%nat -> std_method s x = SetValue e1 g0 s x (GMapStr std_kvs).
Proof.
  intros s x L5. unfold std_method, SetValue. rewrite not_shared by exact L5. cbn [assign acquire bind std_kvs over_keys put_scalar].
  destruct (SetKeyCached e1 g0 (Reset s x TObject) x (bs "TimeOut") TString (c_own (hp s x))) as [[r s2]| | |]; cbn [bind]; auto.
  destruct (SetKeyCached e1 g0 (SetString s2 r (bs "1h3m24s")) x (bs "Age") TString (c_own (hp s x))) as [[r' s3]| | |]; cbn [bind]; auto.
Qed.
(** A pointer field whose method has a pointer receiver, and an object that keeps its old pair. *)
Example C95_refuted_case :
  ok_map (fun s => view 4 (hp s) (Some 5%nat))
    (MSetValue e1 g0 runs 0 arr_st 5 (MStruct [(bs "F", true, false, MPtr (MObj true 1 m_struct)); (bs "I", true, true, MPtr (MObj true 1 m_struct));
                                             (bs "N", true, false, MObj false 1 (MPlain (GSc true (SInt 3))))])) =
    Some (Some (VObject true [(bs "F", VObject true [(bs "A", VInt 0 1)]); (bs "I", VArray [VString (bs "m")]); (bs "N", VInt 0 3)])) /\
  mgoal e1 says1 dx0 (MPtr (MObj true 1 m_struct)) = VArray [VString (bs "m")] /\
  ok_map (fun s => view 4 (hp s) (Some 5%nat)) (MSetValue e1 g0 runs 0 obj_a 5 (MObj false 3 m_struct)) =
    Some (Some (VObject true [(bs "a", VTrue); (bs "n", VTrue)])).
Proof. split; [|split]; vm_compute; reflexivity. Qed.

(** ** C96 *)
(** [SetValue] with a [DxValue] or a pointer to one copies it; the copy shares nothing with the original. *)
Theorem C96_set_value : forall E G run s l m v, wf s -> live s l -> (5 <= l)%nat -> from_graph s m -> ~ reach (hp s) m l ->
  rep (hp s) (Some m) v -> clonable v ->
  exists n0, forall fuel, (n0 <= fuel)%nat -> exists s', MSetValue E G run fuel s l (MDx (Some m)) = Ok s' /\ wf s' /\
    rep (hp s') (Some l) (strip v) /\ (forall z, live s z -> z <> l -> hp s' z = hp s z) /\ (forall z, live s z -> live s' z) /\
    (forall z, reach (hp s') l z -> z = l \/ (z < 5)%nat \/ (~ live s z /\ live s' z)).
Proof.
  intros E G run s l m v W L L5 FG NR R CB.
  destruct (CopyFrom_content G s l m None v W) as [n0 H]; auto; [intros k Q; discriminate|].
  exists n0. intros fuel LE. destruct (H fuel LE) as (s' & Q & W' & RP & F & LV & RC & _).
  exists s'. unfold MSetValue. rewrite not_shared by auto. auto 8.
Qed.
Print Assumptions C96_set_value.
(** (Of another value than the receiver: a copy of the receiver would share the memory of its lists.) *)
Theorem C96_set_value_dx : forall E G run s l m v, wf s -> live s l -> (5 <= l)%nat -> m <> l -> from_graph s m -> ~ (exists y, sees (hp s m) y /\ reach (hp s) y l) ->
  rep (hp s) (Some m) v -> clonable v ->
  exists n0, forall fuel, (n0 <= fuel)%nat -> exists s', MSetValue E G run fuel s l (MDxVal m) = Ok s' /\ wf s' /\
    rep (hp s') (Some l) (strip v) /\ (forall z, live s z -> z <> l -> hp s' z = hp s z) /\ (forall z, live s z -> live s' z) /\
    (forall z, reach (hp s') l z -> z = l \/ (z < 5)%nat \/ (~ live s z /\ live s' z)).
Proof.
  intros E G run s l m v W L L5 _ [LM FG] NR R CB. pose proof (copy_wf s m W (proj1 LM)) as W1.
  assert (SR : forall y x, live s y -> reach (hp (copy_of s m)) y x -> reach (hp s) y x /\ (x < nx s)%nat).
  { intros y x [LY _] RX. induction RX as [|x z RX [IH LX] S]; [split; [constructor|exact LY]|].
    rewrite copy_hp in S by exact LX. assert (RZ : reach (hp s) y z) by (eapply reach_step; eauto).
    split; [exact RZ|]. apply (reach_below s y z W LY RZ). }
  assert (FG1 : from_graph (copy_of s m) (nx s)).
  { split; [apply copy_live; auto|]. intros y Y x RX. rewrite copy_at in Y.
    destruct (SR y x (proj1 (FG y Y y (reach_refl _ _))) RX) as [RX' LX]. destruct (FG y Y x RX') as [A B].
    split; [apply copy_live; auto|]. rewrite copy_hp by exact LX. exact B. }
  assert (NR1 : ~ reach (hp (copy_of s m)) (nx s) l).
  { intros RX. apply reach_cases in RX as [->|(y & Y & RX)]; [destruct L; lia|]. rewrite copy_at in Y.
    apply NR. exists y. split; [exact Y|]. apply (SR y l (proj1 (FG y Y y (reach_refl _ _))) RX). }
  destruct (CopyFrom_content G (copy_of s m) l (nx s) None v W1) as [n0 H]; auto.
  { intros k Q; discriminate. }
  { apply copy_live; auto. }
  { apply copy_rep; auto. apply LM. }
  exists n0. intros fuel LE. destruct (H fuel LE) as (s' & Q & W' & RP & F & LV & RC & _).
  exists s'. unfold MSetValue. rewrite not_shared by auto. split; [exact Q|]. split; [exact W'|]. split; [exact RP|].
  split; [|split].
  - intros z LZ Z. rewrite F; [apply copy_hp, LZ|apply copy_live; auto|exact Z].
  - intros z LZ. apply LV, copy_live; auto.
  - intros z RZ. destruct (RC z RZ) as [Z|[Z|[Z1 Z2]]]; auto. right. right. split; [|exact Z2]. intros LZ. apply Z1, copy_live; auto.
Qed.
Print Assumptions C96_set_value_dx.
(** [SetKeyvalue] and [SetIndexvalue] with a pointer store the pointer itself, as an element of a
    map[string]interface{} or of an []interface{} too. *)
Theorem C96_pointer : forall E G run s l name m c, wf s -> live s l -> live s m -> (5 <= l)%nat -> new_key E s l name ->
  exists s', MSetKeyvalue E G run s l name (MDx (Some m)) c = Ok s' /\ wf s' /\ c_kvs (hp s' l) = c_kvs (hp s l) ++ [(name, Some m)] /\
    (forall z, z <> l -> hp s' z = hp s z).
Proof.
  intros E G run s l name m c W L LM L5 (D & UN & NK).
  assert (RD : ready E s (DKey l name)) by (split; [exact D|split; [apply find_key_none'; exact NK|exact UN]]).
  destruct (store_effect E G s (DKey l name) (Some m) W RD L) as (W3 & AD & FR & _).
  { intros y Q. injection Q as <-. split; [apply LM|intros []]. }
  eexists. split; [reflexivity|]. split; [exact W3|]. split; [apply AD|exact FR].
Qed.
Print Assumptions C96_pointer.
Theorem C96_pointer_index : forall E G run s l i m c, wf s -> live s l -> live s m -> (5 <= l)%nat -> c_dt (hp s l) = TArray -> zlen (c_arr (hp s l)) <= i ->
  exists s', MSetIndexvalue E G run s l i (MDx (Some m)) c = Ok s' /\ wf s' /\ c_arr (hp s' l) = c_arr (hp s l) ++ [Some m] /\
    (forall z, z <> l -> hp s' z = hp s z).
Proof.
  intros E G run s l i m c W L LM L5 D LN.
  destruct (store_effect E G s (DIdx l i) (Some m) W (conj D LN) L) as (W3 & AD & FR & _).
  { intros y Q. injection Q as <-. split; [apply LM|intros []]. }
  eexists. split; [reflexivity|]. split; [exact W3|]. split; [apply AD|exact FR].
Qed.
Print Assumptions C96_pointer_index.
(** A pointer in a field or in a typed map or slice is not stored: the entry is a new value with the same
    direct content, whose children are those of the original.  The same for a [DxValue] anywhere but at the top. *)
Theorem C96_copied : forall E G run s l name m c, wf s -> live s l -> live s m -> (5 <= l)%nat -> new_key E s l name ->
  exists s', MSetKeyvalue E G run s l name (MDxVal m) c = Ok s' /\ wf s' /\ c_kvs (hp s' l) = c_kvs (hp s l) ++ [(name, Some (nx s))] /\
    ~ live s (nx s) /\ hp s' (nx s) = hp s m /\ (forall z, live s z -> z <> l -> hp s' z = hp s z).
Proof.
  intros E G run s l name m c W L LM L5 (D & UN & NK). pose proof (copy_wf s m W (proj1 LM)) as W1.
  assert (HL : hp (copy_of s m) l = hp s l) by (apply copy_hp, L).
  assert (RD : ready E (copy_of s m) (DKey l name)).
  { cbn [ready]. rewrite HL. split; [exact D|split; [apply find_key_none'; exact NK|exact UN]]. }
  destruct (store_effect E G (copy_of s m) (DKey l name) (Some (nx s)) W1 RD) as (W3 & AD & FR & _).
  { apply copy_live; auto. }
  { intros y Q. injection Q as <-. split; [cbn [copy_of nx]; lia|intros []]. }
  destruct AD as (_ & _ & KV). rewrite HL in KV. eexists. split; [reflexivity|]. split; [exact W3|]. split; [exact KV|].
  split; [intros [Z _]; lia|]. cbn [at_loc] in FR. split.
  - change (store_copy E G s (DKey l name) m) with (store E G (copy_of s m) (DKey l name) (Some (nx s))).
    rewrite FR by (destruct L; lia). apply copy_at.
  - intros z LZ Z. change (store_copy E G s (DKey l name) m) with (store E G (copy_of s m) (DKey l name) (Some (nx s))).
    rewrite FR by exact Z. apply copy_hp, LZ.
Qed.
Print Assumptions C96_copied.
Theorem C96_field_refuted : forall E G run s name m d c l,
  massign E G run false (MStruct [(name, true, false, MDx (Some m))]) s d c = massign E G run false (MStruct [(name, true, false, MDxVal m)]) s d c /\
  massign E G run false (MRMap false [(name, MDx (Some m))]) s d c = massign E G run false (MRMap false [(name, MDxVal m)]) s d c /\
  massign E G run false (MRSlice false [MDx (Some m)]) s d c = massign E G run false (MRSlice false [MDxVal m]) s d c /\
  ((5 <= l)%nat -> forall fuel, MSetValue E G run fuel s l (MStruct [(name, true, false, MDx None)]) = Panic /\
     MSetValue E G run fuel s l (MDx None) = Panic) /\
  massign E G run false (MRSlice false [MDx None]) s d c = massign E G run false (MPlain (GRSlice false [GNilPtr false])) s d c.
Proof.
  intros. split; [|split; [|split; [|split]]]; try reflexivity.
  intros L5 fuel. unfold MSetValue. rewrite not_shared by auto. split; reflexivity.
Qed.
Print Assumptions C96_field_refuted.

(** The array [1, 2] at 5 in a map, in fields, and in slices, set on the object at 8. *)
Definition dx_st : st := st_of e1 g0 (arr_ops ++ [ONewObject; OSetKeyValue 8 (bs "old") (Some 0%nat)]).
Definition dx1 (m : nat) : value := if (m =? 5)%nat then VArray [VInt 0 1; VInt 0 2] else VNilP.
Definition dx_sample : mval :=
  MMap [(bs "p", MDx (Some 5%nat)); (bs "v", MDxVal 5);
        (bs "s", MStruct [(bs "F", true, false, MDx (Some 5%nat)); (bs "I", true, true, MDx (Some 5%nat)); (bs "V", true, false, MDxVal 5)]);
        (bs "l", MRSlice false [MDx (Some 5%nat)]); (bs "i", MList [MDx (Some 5%nat); MDx None]); (bs "n", MDx None)].
Lemma dx_lends : lends dx_st (fun x => (x < 8)%nat) 8.
Proof.
  split; [intros; lia|]. split; [|split; [|lia]].
  - intros x y L S. unfold sees in S. do 8 (destruct x as [|x]; [vm_compute in S; intuition (try discriminate; try match goal with H : Some _ = Some _ |- _ => injection H as <- end; lia)|]). lia.
  - intros x L. do 8 (destruct x as [|x]; [apply live_of; vm_compute; reflexivity|]). lia.
Qed.
Lemma dx_sample_kept : mkept e1 runs says1 (fun x => (x < 8)%nat) (hp dx_st) dx1 false dx_sample.
Proof.
  assert (L5 : lentv (fun x => (x < 8)%nat) (hp dx_st) dx1 5).
  { split; [lia|]. exists (VArray [VInt 0 1; VInt 0 2]). split; [apply (view_rep 3); vm_compute; reflexivity|vm_compute; reflexivity]. }
  cbn [mkept dx_sample]. unfold no_clash.
  repeat first [exact L5 | split | constructor | intros]; cbn; auto; try reflexivity; try lia; try discriminate.
Qed.
Definition after_both (r : res st) : option (option value) :=
  ok_map (fun s => view 6 (hp s) (Some 8%nat))
    (do s <- r; Ok (SetInt (snd (InsertValue s 5 2 TTrue)) 6 9)).
(** Afterwards an element is inserted into the array and its first element is set to 9: the pointers under
    "p", in the field of type interface{} and in the []interface{} show both, the copies only the second. *)
Example C96_case : wf dx_st /\ live dx_st 8 /\ lends dx_st (fun x => (x < 8)%nat) 8 /\ boxed dx_sample /\
  mkept e1 runs says1 (fun x => (x < 8)%nat) (hp dx_st) dx1 false dx_sample /\
  ok_map (fun s => view 6 (hp s) (Some 8%nat)) (MSetValue e1 g0 runs 0 dx_st 8 dx_sample) = Some (Some (mgoal e1 says1 dx1 dx_sample)) /\
  mgoal e1 says1 dx1 dx_sample =
    (let a := VArray [VInt 0 1; VInt 0 2] in
     VObject true [(bs "p", a); (bs "v", a); (bs "s", VObject true [(bs "F", a); (bs "I", a); (bs "V", a)]);
                   (bs "l", VArray [a]); (bs "i", VArray [a; VNilP]); (bs "n", VNilP)]) /\
  after_both (MSetValue e1 g0 runs 0 dx_st 8 dx_sample) =
    (let a := VArray [VInt 0 9; VInt 0 2; VTrue] in let b := VArray [VInt 0 9; VInt 0 2] in
     Some (Some (VObject true [(bs "p", a); (bs "v", b); (bs "s", VObject true [(bs "F", b); (bs "I", a); (bs "V", b)]);
                   (bs "l", VArray [b]); (bs "i", VArray [a; VNilP]); (bs "n", VNilP)]))).
Proof.
  split; [apply st_of_wf; vm_compute; reflexivity|]. split; [apply live_of; vm_compute; reflexivity|]. split; [exact dx_lends|].
  split; [exact I|]. split; [exact dx_sample_kept|]. split; [|split]; vm_compute; reflexivity.
Qed.
(** [SetValue] itself copies: neither change shows. *)
Example C96_copy_case : from_graph dx_st 5 /\ ~ reach (hp dx_st) 5 8 /\ rep (hp dx_st) (Some 5%nat) (VArray [VInt 0 1; VInt 0 2]) /\
  clonable (VArray [VInt 0 1; VInt 0 2]) /\
  after_both (MSetValue e1 g0 runs 9 dx_st 8 (MDx (Some 5%nat))) = Some (Some (VArray [VInt 0 1; VInt 0 2])) /\
  after_both (MSetValue e1 g0 runs 9 dx_st 8 (MDxVal 5)) = Some (Some (VArray [VInt 0 1; VInt 0 2])).
Proof.
  assert (ST : forall x y, reach (hp dx_st) x y -> (x < 8)%nat -> (y < 8)%nat).
  { intros x y R L. induction R as [|y z R IH S]; [exact L|]. apply (proj1 (proj2 dx_lends) y z); auto. }
  split; [|split; [|split; [|split; [|split]]]]; try (vm_compute; reflexivity).
  - split; [apply live_of; vm_compute; reflexivity|]. intros y Y x R.
    assert (Y' : y = 6%nat \/ y = 7%nat) by (vm_compute in Y; intuition congruence).
    assert (RX : x = y).
    { apply reach_cases in R as [->|(z & Z & _)]; [reflexivity|]. destruct Y' as [-> | ->]; vm_compute in Z; destruct Z. }
    subst x. split; [apply (proj1 (proj2 (proj2 dx_lends))); lia|]. intros Cd; exfalso; apply Cd; destruct Y' as [-> | ->]; vm_compute; reflexivity.
  - intros R. apply ST in R; lia.
  - apply (view_rep 3). vm_compute. reflexivity.
  - cbn. auto.
Qed.
