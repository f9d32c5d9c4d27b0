(** Properties C49, C63, C64, C65: exporting values to Go.  Each theorem is followed by what it assumes
    and by a concrete case.  [F] is [String] of containers and bytes, about which nothing is assumed. *)
From Coq Require Import String.
From Verif Require Import Base Values Tactics Env0 HeapModel HeapSpec HeapBase HeapConf HeapGet HeapView JsonModel
  ApiSpec HeapMap HeapCalls HeapObj HeapForce HeapMono HeapClone HeapBuild MsgLoadModel MsgLoadSpec GetModel HeapTyped ReflectModel ReflectSpec ReflectThms ReflectRoot
  ExportModel ExportSpec ExportThms ExportStruct StructSpec StructThms
  Properties_Map Properties_Heap Properties_Clone Properties_Merge Properties_Get Properties_Reflect.

(** ** C49 *)
(** [ToStdValue] into a map[string]interface{} [m], for every object without nil entries: each key
    holds what its last entry becomes, the other keys of [m] are kept, and in memory nothing but raw
    strings changes, which are unescaped.  [std] says what an entry becomes. *)
Theorem C49_export : forall E T F s l u kvs m, rep (hp s) (Some l) (VObject u kvs) -> solid (VObject u kvs) ->
  exists n, forall fuel, (n <= fuel)%nat -> exists m' s', ToStdMap E T F fuel s l m = Ok (true, m', s') /\ settled E s s' /\
    forall k, go_get m' k = match last_of (gather (std E) kvs) k with Some x => Some x | None => go_get m k end.
Proof.
  intros E T F s l u kvs m R S1. destruct (to_map E T F s l u kvs m R S1) as (n & H). exists n. intros fuel L.
  destruct (H fuel L) as (m' & s' & Q & ST & GET & _). eauto.
Qed.
Print Assumptions C49_export.
(** Objects of objects and scalars with distinct keys are exported completely and in order. *)
Theorem C49_objects : forall E T F s l v, rep (hp s) (Some l) v -> exportable v -> c_dt (hp s l) = TObject ->
  exists n, forall fuel, (n <= fuel)%nat -> exists m s', ToStdMap E T F fuel s l [] = Ok (true, m, s') /\ settled E s s' /\
    XMap m = ideal E v.
Proof.
  intros E T F s l v R X D. inversion R; subst; try congruence.
  destruct (to_map E T F s l _ kvs [] R (exportable_solid _ X)) as (n & H'). exists n. intros fuel L.
  destruct (H' fuel L) as (m' & s' & Q & ST & _ & NEW). exists m', s'. split; [exact Q|]. split; [exact ST|].
  apply exportable_obj in X as [ND FA]. rewrite ideal_obj. f_equal. rewrite gather_map in NEW.
  - apply NEW. cbn [app]. rewrite map_map. exact ND.
  - rewrite Forall_forall in *. intros kv I. apply std_ideal. apply FA. exact I.
Qed.
Print Assumptions C49_objects.
(** A value is exported to a map exactly when it is an object, and to a slice exactly when it is an array;
    otherwise the answer is false and nothing changes.  (Entries without nil, [solid], as above.) *)
Theorem C49_kind : forall E T F s l v m sl, rep (hp s) (Some l) v -> solid v ->
  exists n, forall fuel, (n <= fuel)%nat ->
    (exists b m' s', ToStdMap E T F fuel s l m = Ok (b, m', s') /\ (b = true <-> exists u kvs, v = VObject u kvs) /\ (b = false -> m' = m /\ s' = s)) /\
    ((forall vs, v <> VArray vs) -> ToStdSlice E T F fuel s l sl = Ok (false, sl, s)).
Proof.
  intros E T F s l v m sl R SO.
  assert (K : c_dt (hp s l) <> TObject -> (forall u kvs, v <> VObject u kvs)) by (intros D u kvs ->; inversion R; congruence).
  assert (SL : (forall vs, v <> VArray vs) -> forall fuel, ToStdSlice E T F fuel s l sl = Ok (false, sl, s)).
  { intros NA fuel. unfold ToStdSlice. inversion R as [|l0 kvs D FA|l0 vs D FA|l0 D|l0 D|l0 D|l0 D|l0 D|l0 D|l0 D|l0 D|l0 D|l0 D|l0 D|l0 D|l0 D]; subst; rewrite D; try reflexivity.
    destruct (NA vs eq_refl). }
  destruct v as [|u kvs|vs| | | | | | | | | | | | |];
    try (exists 0%nat; intros fuel _; split; [|intros NA; apply SL; exact NA]; exists false, m, s;
         split; [unfold ToStdMap; inversion R as [|l0 kvs0 D FA|l0 vs0 D FA|l0 D|l0 D|l0 D|l0 D|l0 D|l0 D|l0 D|l0 D|l0 D|l0 D|l0 D|l0 D|l0 D]; subst; rewrite D; reflexivity|];
         split; [split; [discriminate|intros (u' & kvs' & Q); discriminate]|auto]).
  destruct (C49_export E T F s l u kvs m R SO) as (n & H). exists n. intros fuel L. split; [|intros NA; apply SL; exact NA].
  destruct (H fuel L) as (m' & s' & Q & _). exists true, m', s'. split; [exact Q|]. split; [split; eauto|discriminate].
Qed.
Print Assumptions C49_kind.
(** Arrays lose their elements: the slice has the right length and only nils in it. *)
Theorem C49_arrays_refuted : forall E T F s l u a k vs b m, rep (hp s) (Some l) (VObject u (a ++ (k, VArray vs) :: b)) ->
  solid (VObject u (a ++ (k, VArray vs) :: b)) -> ~ In k (map fst b) ->
  exists n, forall fuel, (n <= fuel)%nat -> exists m' s', ToStdMap E T F fuel s l m = Ok (true, m', s') /\
    go_get m' k = Some (XSlice (repeat XNil (List.length vs))) /\
    ((exists x, In x vs /\ ideal E x <> XNil) -> go_get m' k <> Some (ideal E (VArray vs))).
Proof.
  intros E T F s l u a k vs b m R SO NI. destruct (C49_export E T F s l u _ m R SO) as (n & H). exists n. intros fuel L.
  destruct (H fuel L) as (m' & s' & Q & _ & GET). exists m', s'. split; [exact Q|].
  assert (G : go_get m' k = Some (XSlice (repeat XNil (List.length vs)))).
  { rewrite GET. assert (GA : forall x y, gather (std E) (x ++ y) = gather (std E) x ++ gather (std E) y).
    { intros x y. induction x as [|[k' v] x IH]; [reflexivity|]. cbn [app]. unfold gather at 1 2. destruct (std E v); [cbn [app]; f_equal|]; exact IH. }
    rewrite GA. change (gather (std E) ((k, VArray vs) :: b)) with ((k, XSlice (repeat XNil (List.length vs))) :: gather (std E) b).
    unfold last_of. rewrite rev_app_distr. cbn [rev]. rewrite <- app_assoc, get_app.
    assert (NG : forall z, ~ In k (map fst z) -> go_get (rev (gather (std E) z)) k = None).
    { intros z NZ. destruct (go_get (rev (gather (std E) z)) k) as [x|] eqn:QG; [|reflexivity]. exfalso. apply NZ. clear - QG.
      assert (IN : exists y, In (k, y) (gather (std E) z)).
      { unfold go_get in QG. destruct (find _ _) as [[k' y]|] eqn:FD; [|discriminate]. apply find_some in FD as [I B]. apply in_rev in I.
        cbn [fst] in B. apply beq_eq in B. subst. eauto. }
      destruct IN as (y & I). clear QG. induction z as [|[k' v] z IH]; [destruct I|]. unfold gather in I. cbn [map fst].
      destruct (std E v); [destruct I as [Q|I]; [injection Q as -> _; left; reflexivity|]|]; right; apply IH; exact I. }
    rewrite (NG b NI). cbn [app]. unfold go_get. cbn [find fst]. rewrite beq_refl. reflexivity. }
  split; [exact G|]. intros (x & I & NX) QI. rewrite G in QI. injection QI as QI. apply NX.
  assert (IN : In (ideal E x) (map (ideal E) vs)) by (apply in_map; exact I). rewrite <- QI in IN. apply repeat_spec in IN. exact IN.
Qed.
Print Assumptions C49_arrays_refuted.
(** [ToStdValue] into a []interface{} answers true and gives the caller nothing. *)
Theorem C49_slice_refuted : forall E T F s l vs v, rep (hp s) (Some l) (VArray vs) -> solid (VArray vs) ->
  exists n, forall fuel, (n <= fuel)%nat -> exists s', ToStdSlice E T F fuel s l v = Ok (true, v, s').
Proof.
  intros E T F s l vs v R SO. exists (dep (VArray vs)). intros fuel L. cbn [dep] in L. inversion R; subst. unfold ToStdSlice.
  match goal with H : c_dt _ = _ |- _ => rewrite H end.
  destruct (elems_out E T F vs (proj2 (Forall_forall _ _) (fun x _ => exports_all E T F x)) s fuel _ v s H2 (proj1 (solid_arr _) SO) (settled_refl E s) ltac:(lia)) as (m1 & s1 & Q & _).
  rewrite Q. cbn [bind]. eauto.
Qed.
Print Assumptions C49_slice_refuted.
(** NaN and infinity are left out without notice. *)
Theorem C49_number_refuted : forall E T F fuel s l u k m, rep (hp s) (Some l) (VObject u [(k, VNan)]) ->
  exists s', ToStdMap E T F (S fuel) s l m = Ok (true, m, s').
Proof.
  intros E T F fuel s l u k m R. inversion R as [|l' kvs' DT FA| | | | | | | | | | | | | |]; subst. unfold ToStdMap. rewrite DT.
  inversion FA as [|[k' p] ? src ? [K1 R1] R2]; subst. inversion R2; subst. cbn [visit_pairs snd] in *. inversion R1; subst. cbn [export].
  match goal with H : c_dt _ = TNan |- _ => rewrite H end. cbn [bind]. eauto.
Qed.
Print Assumptions C49_number_refuted.
(** [ToStdValue] into a map[string]string: every scalar entry as its text. *)
Theorem C49_strings : forall E F s l u kvs m t, rep (hp s) (Some l) (VObject u kvs) -> texts E kvs = Some t ->
  exists m' s', ToStdStrMap E F s l m = Ok (true, m', s') /\ settled E s s' /\
    forall k, go_get m' k = match last_of t k with Some x => Some x | None => go_get m k end.
Proof. exact to_strings. Qed.
Print Assumptions C49_strings.

(** [ToStdValue] into a []string: every scalar element is turned into text, the call answers true, and the caller's slice stays as it was. *)
Theorem C49_string_slice_refuted : forall E F s l vs v t, rep (hp s) (Some l) (VArray vs) -> texts E (map (fun x => ([], x)) vs) = Some t ->
  exists s', ToStdStrings E F s l v = Ok (true, v, s') /\ settled E s s'.
Proof.
  intros E F s l vs v t R Q. inversion R as [| |l' vs' DT FA| | | | | | | | | | | | |]; subst. unfold ToStdStrings. rewrite DT.
  assert (FA' : Forall2 (fun a b => fst a = fst b /\ rep (hp s) (snd a) (snd b)) (map (fun p : ptr => (@nil Z, p)) (c_arr (hp s l))) (map (fun x => ([], x)) vs)).
  { clear - FA. induction FA; cbn [map]; constructor; cbn [fst snd]; auto. }
  destruct (strings_out E F _ s _ [] s t Q FA' (settled_refl E s)) as (s1 & Q1 & S1). rewrite Q1. cbn [bind]. eauto.
Qed.
Print Assumptions C49_string_slice_refuted.
Theorem C49_string_slice_other : forall E F s l v, c_dt (hp s l) <> TArray -> ToStdStrings E F s l v = Ok (false, v, s).
Proof. intros E F s l v D. unfold ToStdStrings. destruct (c_dt (hp s l)); try reflexivity. contradiction. Qed.
Print Assumptions C49_string_slice_other.
(** [{"a":{"r":"x\/","i":-1},"b":[7]}], the string raw. *)
Definition out_st : st :=
  mkSt (upd (upd (upd (upd (upd (upd (hp st0) 5 (mkCell TObject 0 false [(bs "a", Some 6%nat); (bs "b", Some 9%nat)] [] None 0 [] [] []))
    6 (mkCell TObject 0 true [(bs "r", Some 7%nat); (bs "i", Some 8%nat)] [] None 0 [] [] []))
    7 (mkCell TRaw 0 false [] [] None 0 (bs "x\/") [] []))
    8 (mkCell TInt 0 false [] [] None (to_u64 (-1)) [] [] []))
    9 (mkCell TArray 0 false [] [] None 0 [] [] [Some 10%nat]))
    10 (mkCell TInt 0 false [] [] None 7 [] [] [])) 11 (cs st0) (nc st0) (pl st0).
Definition out_a : value := VObject true [(bs "r", VRawString (bs "x\/")); (bs "i", VInt 0 (-1))].
Definition noF : st -> nat -> res bytes := fun _ _ => Panic.
Example C49_case : rep (hp out_st) (Some 5%nat) (VObject false [(bs "a", out_a); (bs "b", VArray [VInt 0 7])]) /\
  solid (VObject false [(bs "a", out_a); (bs "b", VArray [VInt 0 7])]) /\ rep (hp out_st) (Some 6%nat) out_a /\ exportable out_a /\
  ideal e1 out_a = XMap [(bs "r", XStr (bs "x/")); (bs "i", XInt (-1))] /\
  texts e1 [(bs "r", VRawString (bs "x\/")); (bs "i", VInt 0 (-1))] = Some [(bs "r", bs "x/"); (bs "i", bs "-1")] /\
  ok_map (fun r => snd (fst r)) (ToStdMap e1 t0 noF 3 out_st 5 [(bs "b", XNil); (bs "z", XInt 3)]) =
    Some [(bs "b", XSlice [XNil]); (bs "z", XInt 3); (bs "a", XMap [(bs "r", XStr (bs "x/")); (bs "i", XInt (-1))])].
Proof.
  split; [apply (view_rep 4); vm_compute; reflexivity|]. split; [cbn; tauto|]. split; [apply (view_rep 4); vm_compute; reflexivity|].
  split; [|split; [vm_compute; reflexivity|split; vm_compute; reflexivity]].
  cbn. split; [|tauto]. constructor; [intros [H|[]]; discriminate|constructor; [intros []|constructor]].
Qed.
(** Keys are exported as they are stored: a key that [ValueByName] finds as [a/] is exported as [a\/]. *)
Theorem C49_keys_refuted : wf nested /\ fst (ValueByName e1 nested 5 (bs "a/")) = Some 6%nat /\
  exists m s', ToStdMap e1 t0 noF 3 nested 5 [] = Ok (true, m, s') /\ go_get m (bs "a/") = None /\ go_get m (bs "a\/") <> None.
Proof.
  split; [exact wf_nested|]. split; [vm_compute; reflexivity|].
  destruct (ok_ex (fun r => (fst (fst r), snd (fst r))) (ToStdMap e1 t0 noF 3 nested 5 []) (true, [(bs "a\/", XSlice [XNil; XNil])])) as ([[b m] s'] & Q & V);
    [vm_compute; reflexivity|]. cbn [fst snd] in V. injection V as -> ->. exists [(bs "a\/", XSlice [XNil; XNil])], s'.
  split; [exact Q|]. split; [reflexivity|]. vm_compute. discriminate.
Qed.
Print Assumptions C49_keys_refuted.

(** ** C63 *)
(** [ToStdValue] into a pointer to a struct: whenever [conv] gives a content, the call answers true and
    leaves exactly this content in the variable.  Every field receives the entries whose key hits it
    and no field before it, in order; fields that no key hits keep their content. *)
Theorem C63_struct : forall E T F ic fs d d' s l v, rep (hp s) (Some l) v -> c_dt (hp s l) = TObject ->
  conv E T ic (YStruct fs) false d v = Some d' ->
  exists s', ToStdPtr E T F ic (YStruct fs) d s l = Ok (true, d', s') /\ settled E s s'.
Proof.
  intros E T F ic fs d d' s l v R D C. destruct (decodes_all E T F ic _ _ _ s s (Some l) v d' C R (settled_refl E s)) as (s2 & Q2 & S2).
  exists s2. split; [|exact S2]. unfold ToStdPtr. rewrite D, Q2. reflexivity.
Qed.
Print Assumptions C63_struct.
(** A value that is no object is refused; a pointer to a slice never receives anything. *)
Theorem C63_refused : forall E T F ic t d s l, c_dt (hp s l) <> TObject -> ToStdPtr E T F ic t d s l = Ok (false, d, s).
Proof. intros. unfold ToStdPtr. destruct (c_dt (hp s l)); try reflexivity. congruence. Qed.
Print Assumptions C63_refused.
Theorem C63_top_slice_refuted : forall E T F ic et d s l, exists b, ToStdPtr E T F ic (YSlice et) d s l = Ok (b, d, s).
Proof.
  intros. unfold ToStdPtr. destruct (c_dt (hp s l)) eqn:D; eauto. cbn [decode]. rewrite D. cbn [bind]. eauto.
Qed.
Print Assumptions C63_top_slice_refuted.
Definition out_type : list (bytes * bool * gtype) :=
  [(bs "R", true, YStr); (bs "I", true, YUint 8); (bs "r", true, YInt 64); (bs "k", true, YF64)].
Example C63_case : rep (hp out_st) (Some 6%nat) out_a /\ c_dt (hp out_st 6) = TObject /\
  conv e1 t0 true (YStruct out_type) false (LStruct [LStr (bs "old"); LInt 0; LInt 9; LF64 4]) out_a =
    Some (LStruct [LStr (bs "x/"); LInt 255; LInt 9; LF64 4]).
Proof. split; [apply (view_rep 4); vm_compute; reflexivity|]. split; vm_compute; reflexivity. Qed.

Lemma one_entry s l u k v : rep (hp s) (Some l) (VObject u [(k, v)]) -> c_dt (hp s l) = TObject /\ exists p, c_kvs (hp s l) = [(k, p)] /\ rep (hp s) p v.
Proof.
  intros R. inversion R as [|l' kvs' DT FA| | | | | | | | | | | | | |]; subst. split; [exact DT|].
  inversion FA as [|[k' p] ? src ? [K1 R1] R2]; subst. inversion R2; subst. cbn [fst snd] in *. subst. eauto.
Qed.
Lemma one_field E T F ic name ft d s l u v p : rep (hp s) (Some l) (VObject u [(name, v)]) -> c_kvs (hp s l) = [(name, p)] ->
  ToStdPtr E T F ic (YStruct [(name, true, ft)]) (LStruct [d]) s l =
    do (d', s1) <- decode E T F ic ft false d s p; Ok (true, LStruct [d'], s1).
Proof.
  intros R K. destruct (one_entry _ _ _ _ _ R) as [D _]. unfold ToStdPtr. rewrite D, decode_struct. unfold cell_entries. rewrite D, K.
  cbn [visit_loop field_loop]. unfold hits. rewrite beq_refl, orb_true_r. cbn [orb negb]. destruct (decode E T F ic ft false d s p) as [[d' s1]| | |]; reflexivity.
Qed.
(** A field that is a slice with room makes the call panic; so does a slice of times. *)
Theorem C63_filled_slice_refuted : forall E T F ic name et cap ds s l u x xs, rep (hp s) (Some l) (VObject u [(name, VArray (x :: xs))]) ->
  ToStdPtr E T F ic (YStruct [(name, true, YSlice et)]) (LStruct [LSlice (S cap) ds]) s l = Panic.
Proof.
  intros E T F ic name et cap ds s l u x xs R. destruct (one_entry _ _ _ _ _ R) as (_ & p & K & R1). rewrite (one_field E T F ic name _ _ s l u _ p R K).
  inversion R1 as [| |l' vs DT FA| | | | | | | | | | | | |]; subst. cbn [decode]. rewrite DT. inversion FA; subst. reflexivity.
Qed.
Print Assumptions C63_filled_slice_refuted.
Theorem C63_time_slice_refuted : forall E T F ic name s l u x xs, rep (hp s) (Some l) (VObject u [(name, VArray (x :: xs))]) ->
  ToStdPtr E T F ic (YStruct [(name, true, YSlice YTime)]) (zero (YStruct [(name, true, YSlice YTime)])) s l = Panic.
Proof.
  intros E T F ic name s l u x xs R. destruct (one_entry _ _ _ _ _ R) as (_ & p & K & R1). cbn [zero map snd].
  rewrite (one_field E T F ic name _ _ s l u _ p R K).
  inversion R1 as [| |l' vs DT FA| | | | | | | | | | | | |]; subst. cbn [decode]. rewrite DT. inversion FA; subst. reflexivity.
Qed.
Print Assumptions C63_time_slice_refuted.
(** An empty array leaves the old elements in the slice; bytes never reach a []byte field. *)
Theorem C63_stale_refuted : forall E T F ic name et d s l u, rep (hp s) (Some l) (VObject u [(name, VArray [])]) ->
  ToStdPtr E T F ic (YStruct [(name, true, YSlice et)]) (LStruct [d]) s l = Ok (true, LStruct [d], s).
Proof.
  intros E T F ic name et d s l u R. destruct (one_entry _ _ _ _ _ R) as (_ & p & K & R1). rewrite (one_field E T F ic name _ _ s l u _ p R K).
  inversion R1 as [| |l' vs DT FA| | | | | | | | | | | | |]; subst. cbn [decode]. rewrite DT. inversion FA; subst. reflexivity.
Qed.
Print Assumptions C63_stale_refuted.
Theorem C63_bytes_refuted : forall E T F ic name d s l u e b, rep (hp s) (Some l) (VObject u [(name, VBinary e b)]) ->
  ToStdPtr E T F ic (YStruct [(name, true, YSlice (YUint 8))]) (LStruct [d]) s l = Ok (true, LStruct [d], s).
Proof.
  intros E T F ic name d s l u e b R. destruct (one_entry _ _ _ _ _ R) as (_ & p & K & R1). rewrite (one_field E T F ic name _ _ s l u _ p R K).
  inversion R1; subst. cbn [decode]. match goal with H : c_dt _ = TBinary |- _ => rewrite H end. reflexivity.
Qed.
Print Assumptions C63_bytes_refuted.
(** With [ignoreCase] the first name that fits wins over an exact one. *)
Theorem C63_exact_refuted : forall E T F a b x y z s l u, x_fold E b a = true -> b <> a -> rep (hp s) (Some l) (VObject u [(b, VString x)]) ->
  exists s', ToStdPtr E T F true (YStruct [(a, true, YStr); (b, true, YStr)]) (LStruct [LStr y; LStr z]) s l = Ok (true, LStruct [LStr x; LStr z], s').
Proof.
  intros E T F a b x y z s l u FD NE R. destruct (one_entry _ _ _ _ _ R) as (D & _).
  destruct (C63_struct E T F true [(a, true, YStr); (b, true, YStr)] (LStruct [LStr y; LStr z]) (LStruct [LStr x; LStr z]) s l _ R D) as (s' & Q & _); [|eauto].
  rewrite conv_struct by discriminate. cbn [entries conv_fields]. unfold sent. cbn [filter map fst snd existsb]. unfold hits. rewrite FD.
  cbn [andb orb negb filter map snd chain conv text_of unless]. rewrite andb_false_r. reflexivity.
Qed.
Print Assumptions C63_exact_refuted.
Definition small_st (k : bytes) (c : cell) : st :=
  mkSt (upd (upd (hp st0) 5 (mkCell TObject 0 true [(k, Some 6%nat)] [] None 0 [] [] [])) 6 c) 7 (cs st0) (nc st0) (pl st0).
Example C63_refuted_cases :
  rep (hp (small_st (bs "T") (mkCell TArray 0 false [] [] None 0 [] [] [Some 0%nat]))) (Some 5%nat) (VObject true [(bs "T", VArray [VTrue])]) /\
  rep (hp (small_st (bs "T") (mkCell TArray 0 false [] [] None 0 [] [] []))) (Some 5%nat) (VObject true [(bs "T", VArray [])]) /\
  rep (hp (small_st (bs "T") (mkCell TBinary 0 false [] [] None 0 [] [1; 2] []))) (Some 5%nat) (VObject true [(bs "T", VBinary 0 [1; 2])]) /\
  rep (hp (small_st (bs "T") (mkCell TString 0 false [] [] None 0 (bs "q") [] []))) (Some 5%nat) (VObject true [(bs "T", VString (bs "q"))]) /\
  x_fold e1 (bs "T") (bs "t") = true.
Proof. repeat split; try (apply (view_rep 3)); vm_compute; reflexivity. Qed.

(** ** C64 *)
(** A struct set on any value and exported to a zero variable of its type comes back unchanged.
    [holds_go]: a variable of the type with content [d] is this Go value; exported fields of type
    string, integer, float, bool, time, and slices and structs of these. *)
Theorem C64_round_trip : forall E T F G ic s l fs gs d, wf s -> live s l -> (5 <= l)%nat -> holds_go E ic (YStruct fs) (GStruct gs) d ->
  exists s1 s2, SetValue E G s l (GStruct gs) = Ok s1 /\
    ToStdPtr E T F ic (YStruct fs) (zero (YStruct fs)) s1 l = Ok (true, d, s2) /\ settled E s1 s2.
Proof. intros E T F G ic s l fs gs d. exact (round_trip E T ic G F s l fs gs d). Qed.
Print Assumptions C64_round_trip.
Definition trip_type : list (bytes * bool * gtype) :=
  [(bs "Name", true, YStr); (bs "N", true, YInt 8); (bs "At", true, YTime); (bs "Tags", true, YSlice YStr);
   (bs "In", true, YStruct [(bs "M", true, YSlice (YSlice (YUint 16))); (bs "F", true, YF32)])].
Definition trip_val : list (bytes * bool * bool * goval) :=
  [(bs "Name", true, false, GSc false (SStr (bs "x"))); (bs "N", true, false, GSc false (SInt (-7))); (bs "At", true, false, GTime (5, 9));
   (bs "Tags", true, false, GStrs [bs "u"; bs "v"]);
   (bs "In", true, false, GStruct [(bs "M", true, false, GRSlice false [GRSlice false [GSc false (SUint 65535)]; GRSlice false []]);
                                   (bs "F", true, false, GSc false (SF32 77))])].
Definition trip_slot : slot :=
  LStruct [LStr (bs "x"); LInt (-7); LTime (Some (5, 9)); LSlice 2 [LStr (bs "u"); LStr (bs "v")];
           LStruct [LSlice 2 [LSlice 1 [LInt 65535]; LSlice 0 []]; LF32 77]].
Example C64_case : wf arr_st /\ live arr_st 5 /\ holds_go e1 true (YStruct trip_type) (GStruct trip_val) trip_slot.
Proof.
  split; [exact arr_wf|]. split; [apply live_of; vm_compute; reflexivity|].
  assert (HS : forall et l ds, holds_list e1 true et l ds -> et <> YTime -> holds_go e1 true (YSlice et) (GRSlice false l) (LSlice (List.length l) ds)).
  { intros et l ds H NT. apply holds_slice. exists l, ds. auto. }
  apply holds_struct. exists trip_val. eexists. split; [reflexivity|]. split; [reflexivity|]. split.
  { repeat first [constructor | split]; vm_compute; reflexivity. }
  cbn [holds_fields trip_type trip_val].
  assert (F1 : holds_go e1 true YStr (GSc false (SStr (bs "x"))) (LStr (bs "x"))) by (exists (bs "x"); auto).
  assert (F2 : holds_go e1 true (YInt 8) (GSc false (SInt (-7))) (LInt (-7))) by (exists (-7); repeat split; try reflexivity; vm_compute; discriminate).
  assert (F3 : holds_go e1 true YTime (GTime (5, 9)) (LTime (Some (5, 9)))) by (exists (5, 9); repeat split; vm_compute; reflexivity).
  assert (F4 : holds_go e1 true (YSlice YStr) (GStrs [bs "u"; bs "v"]) (LSlice 2 [LStr (bs "u"); LStr (bs "v")])).
  { apply holds_slice. exists [GSc false (SStr (bs "u")); GSc false (SStr (bs "v"))]. eexists. split; [right; exists [bs "u"; bs "v"]; auto|].
    split; [reflexivity|]. split; [discriminate|]. cbn [holds_list]. split; [exists (bs "u"); auto|]. split; [exists (bs "v"); auto|exact I]. }
  assert (F6 : holds_go e1 true (YUint 16) (GSc false (SUint 65535)) (LInt 65535)) by (exists 65535; repeat split; try reflexivity; vm_compute; discriminate).
  assert (F7 : holds_go e1 true YF32 (GSc false (SF32 77)) (LF32 77)) by (exists 77; repeat split; try reflexivity; vm_compute; discriminate).
  assert (F5 : holds_go e1 true (YStruct [(bs "M", true, YSlice (YSlice (YUint 16))); (bs "F", true, YF32)])
    (GStruct [(bs "M", true, false, GRSlice false [GRSlice false [GSc false (SUint 65535)]; GRSlice false []]); (bs "F", true, false, GSc false (SF32 77))])
    (LStruct [LSlice 2 [LSlice 1 [LInt 65535]; LSlice 0 []]; LF32 77])).
  { apply holds_struct. eexists. eexists. split; [reflexivity|]. split; [reflexivity|]. split.
    { repeat first [constructor | split]; vm_compute; reflexivity. }
    cbn [holds_fields]. repeat split; auto; try discriminate.
    apply (HS (YSlice (YUint 16)) [GRSlice false [GSc false (SUint 65535)]; GRSlice false []]); [|discriminate]. cbn [holds_list].
    split; [apply (HS (YUint 16) [GSc false (SUint 65535)] [LInt 65535]); [split; [exact F6|exact I]|discriminate]|].
    split; [apply (HS (YUint 16) [] []); [exact I|discriminate]|exact I]. }
  repeat (split; [first [reflexivity | discriminate | intros; discriminate | assumption]|]). exact I.
Qed.
(** Bytes and pointers do not come back: the field stays zero. *)
Theorem C64_bytes_refuted : forall E T F G ic s l name b, wf s -> live s l -> (5 <= l)%nat ->
  exists s1, SetValue E G s l (GStruct [(name, true, false, GBytes b)]) = Ok s1 /\
    ToStdPtr E T F ic (YStruct [(name, true, YSlice (YUint 8))]) (LStruct [LSlice 0 []]) s1 l = Ok (true, LStruct [LSlice 0 []], s1).
Proof.
  intros E T F G ic s l name b W L L5.
  destruct (C62_set_value E G s l (GStruct [(name, true, false, GBytes b)]) W L L5) as (s1 & Q & _ & (w & R & LW) & _).
  { cbn [root_kept kept map name_of]. split; [constructor; constructor|]. tauto. }
  { intros x [X|X]; discriminate. }
  exists s1. split; [exact Q|]. cbn [goal map fst snd] in LW. apply low_obj in LW as (kvs & -> & LW).
  destruct kvs as [|[k v] [|? ?]]; try discriminate. cbn [map fst snd] in LW. injection LW as -> LW. destruct v; try discriminate.
  exact (C63_bytes_refuted E T F ic name _ s1 l _ _ _ R).
Qed.
Print Assumptions C64_bytes_refuted.
Theorem C64_pointer_refuted : forall E T F G ic s l name n, wf s -> live s l -> (5 <= l)%nat -> - 2^63 <= n < 2^63 ->
  exists s1, SetValue E G s l (GStruct [(name, true, false, GPtr (GSc false (SInt n)))]) = Ok s1 /\
    shows (hp s1) (Some l) (VObject true [(name, VInt 0 n)]) /\
    ToStdPtr E T F ic (YStruct [(name, true, YSkip)]) (LStruct [LSkip]) s1 l = Ok (true, LStruct [LSkip], s1).
Proof.
  intros E T F G ic s l name n W L L5 RN.
  destruct (C62_set_value E G s l (GStruct [(name, true, false, GPtr (GSc false (SInt n)))]) W L L5) as (s1 & Q & _ & SH & _).
  { cbn [root_kept kept map name_of]. split; [constructor; constructor|]. unfold sc_kept, not_uint. cbn [in_type]. tauto. }
  { intros x [X|X]; discriminate. }
  exists s1. split; [exact Q|]. split; [exact SH|]. destruct SH as (w & R & LW). cbn [goal map fst snd] in LW. apply low_obj in LW as (kvs & -> & LW).
  destruct kvs as [|[k v] [|? ?]]; try discriminate. cbn [map fst snd] in LW. injection LW as -> LW.
  destruct (one_entry _ _ _ _ _ R) as (_ & p & K & _). rewrite (one_field E T F ic name _ _ s1 l _ _ p R K). reflexivity.
Qed.
Print Assumptions C64_pointer_refuted.
Example C64_refuted_case : wf arr_st /\ live arr_st 5.
Proof. split; [exact arr_wf|apply live_of; vm_compute; reflexivity]. Qed.

(** ** C65 *)
(** [String] changes a value only if it is a raw string (any string read from JSON that was not
    asked for yet), and later calls of [String] return the same. *)
Theorem C65_string : forall E c, (c_dt c <> TRaw -> snd (StringOf E c) = c) /\
  fst (StringOf E (snd (StringOf E c))) = fst (StringOf E c).
Proof. intros E c. unfold StringOf. destruct (c_dt c) eqn:D; cbn [fst snd]; rewrite ?D; split; intros; try reflexivity. congruence. Qed.
Print Assumptions C65_string.
(** But it changes what the other getters return: they convert the text as it is stored, before
    [String] the escaped one, afterwards the other. *)
Theorem C65_getters : forall E T c, c_dt c = TRaw -> let c' := snd (StringOf E c) in
  (Int E c, Int E c') = (x_str2int E (c_str c) 0, x_str2int E (x_unescape E (c_str c)) 0) /\
  (Double E c, Double E c') = (x_str2f64 E (c_str c) 0, x_str2f64 E (x_unescape E (c_str c)) 0) /\
  (Bool E c, Bool E c') = (x_fold E (c_str c) (bs "true"), x_fold E (x_unescape E (c_str c)) (bs "true")) /\
  (GoTime E T c, GoTime E T c') = (parse_time T (c_str c), parse_time T (x_unescape E (c_str c))).
Proof. intros E T c D c'. unfold c', StringOf. rewrite D. unfold Int, Double, Bool, GoTime. rewrite D. repeat split. Qed.
Print Assumptions C65_getters.
Theorem C65_refuted : exists text b c, NewValueFromJson e1 text = Ok (VObject false [(bs "a", VRawString b)]) /\
  c_dt c = TRaw /\ c_str c = b /\ Int e1 c = 0 /\ Int e1 (snd (StringOf e1 c)) = 12.
Proof.
  exists (bs "{""a"":""\12""}"), (bs "\12"), (mkCell TRaw 0 false [] [] None 0 (bs "\12") [] []).
  repeat split; vm_compute; reflexivity.
Qed.
Print Assumptions C65_refuted.
Example C49_string_slice_case : rep (hp out_st) (Some 9%nat) (VArray [VInt 0 7]) /\ texts e1 (map (fun x => ([], x)) [VInt 0 7]) = Some [([], bs "7")] /\
  ok_map (fun r => fst r) (ToStdStrings e1 noF out_st 9 [bs "old"]) = Some (true, [bs "old"]) /\
  ok_map (fun r => fst r) (ToStdStrings e1 noF out_st 6 [bs "old"]) = Some (false, [bs "old"]).
Proof. split; [apply (view_rep 4); vm_compute; reflexivity|]. repeat split; vm_compute; reflexivity. Qed.
