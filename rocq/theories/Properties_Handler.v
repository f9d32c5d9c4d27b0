(** Properties C92, C93: exporting values to Go through registered conversion functions and
    [DecodeFromDxValue], and into variables of basic types.  Each theorem is followed by what it assumes
    and by a concrete case. *)
From Coq Require Import String.
From Verif Require Import Base Values Tactics Env0 HeapModel HeapSpec HeapView GetModel
  ExportModel ExportSpec ExportThms ExportStruct HandlerModel HandlerSpec HandlerThms Properties_Merge Properties_Map Properties_Heap Properties_Get Properties_Export.

(** ** C92 *)
(** Whatever functions are registered and methods exist, as long as they answer and change nothing in memory
    but unescape raw strings ([well]): the struct holds exactly what [hconv] says. *)
Theorem C92_struct : forall E T F ic meth pure M PM tb t fs d d' s l v, well E meth pure M tb ->
  rep (hp s) (Some l) v -> c_dt (hp s l) = TObject -> PM t = None -> under t = HStruct fs ->
  hconv E T meth pure ic t false d v = Some d' ->
  exists s', ToStdHPtr E T F M PM tb ic t d s l = Ok (true, d', s') /\ settled E s s'.
Proof.
  intros E T F ic meth pure M PM tb t fs d d' s l v W R D P U C.
  destruct (hdecodes_all E T F ic meth pure M tb W t false d s s (Some l) v d' C R (settled_refl E s)) as (s2 & Q2 & S2).
  exists s2. split; [|exact S2]. unfold ToStdHPtr. rewrite P, D, U, Q2. reflexivity.
Qed.
Print Assumptions C92_struct.
(** Field by field: a field of a registered type gets what its function makes, in order, of the entries whose
    key hits this field and no field before it; a field of a type with the method keeps its content. *)
Definition names (fs : list (bytes * bool * htype)) : list bytes := map (fun f => fst (fst f)) fs.
Lemma fields_nth E T ic meth pure kvs fs : forall before ds ds' i name ex ft d, hconv_fields E T ic meth pure false kvs before fs ds = Some ds' ->
  nth_error fs i = Some (name, ex, ft) -> nth_error ds i = Some d ->
  exists d1, nth_error ds' i = Some d1 /\
    chain (fconv E T ic meth pure ft (negb ex)) d (sent E ic (rev (names (firstn i fs)) ++ before) name kvs) = Some d1.
Proof.
  induction fs as [|[[n e] t] fs IH]; intros before ds ds' i name ex ft d Q NF ND; [destruct i; discriminate NF|].
  destruct ds as [|d0 ds]; [destruct i; discriminate ND|]. cbn [hconv_fields] in Q. fold (hconv_fields E T ic meth pure false kvs) in Q.
  destruct (chain _ d0 _) as [d1|] eqn:C; [|discriminate]. destruct (hconv_fields _ _ _ _ _ _ _ (n :: before) fs ds) as [ds1|] eqn:H; [|discriminate].
  injection Q as <-. destruct i as [|i].
  - injection NF as -> -> ->. injection ND as ->. exists d1. split; [reflexivity|]. exact C.
  - cbn [nth_error] in *. destruct (IH _ _ _ i name ex ft d H NF ND) as (dx & NX & CX). exists dx. split; [exact NX|].
    cbn [firstn names map rev fst]. rewrite <- app_assoc. exact CX.
Qed.
Theorem C92_field : forall E T F ic meth pure M PM tb fs ds d' s l v, well E meth pure M tb ->
  rep (hp s) (Some l) v -> c_dt (hp s l) = TObject -> PM (HStruct fs) = None ->
  hconv E T meth pure ic (HStruct fs) false (LStruct ds) v = Some d' ->
  exists ds' s', ToStdHPtr E T F M PM tb ic (HStruct fs) (LStruct ds) s l = Ok (true, LStruct ds', s') /\ settled E s s' /\
    forall i name ex ft d, nth_error fs i = Some (name, ex, ft) -> nth_error ds i = Some d ->
      (forall f, M ft = None -> pure ft = Some f ->
        nth_error ds' i = chain (f (negb ex)) d (sent E ic (rev (names (firstn i fs))) name (entries v))) /\
      (forall m, M ft = Some m -> nth_error ds' i = Some d) /\
      (M ft = None -> tb ft = None ->
        nth_error ds' i = chain (hconv E T meth pure ic ft (negb ex)) d (sent E ic (rev (names (firstn i fs))) name (entries v))).
Proof.
  intros E T F ic meth pure M PM tb fs ds d' s l v W R D P C.
  destruct (C92_struct E T F ic meth pure M PM tb (HStruct fs) fs _ _ s l v W R D P eq_refl C) as (s' & Q & ST).
  rewrite hconv_struct in C by (intros ->; inversion R). destruct (hconv_fields _ _ _ _ _ _ _ [] fs ds) as [ds'|] eqn:H; [|discriminate].
  injection C as <-. exists ds', s'. split; [exact Q|]. split; [exact ST|]. intros i name ex ft d NF ND.
  destruct (fields_nth _ _ _ _ _ _ _ _ _ _ i name ex ft d H NF ND) as (d1 & N1 & C1). rewrite app_nil_r in C1. rewrite N1.
  destruct W as [WM WT]. specialize (WM ft). specialize (WT ft).
  split; [|split].
  - intros f MN PF. rewrite MN in WM. rewrite <- C1. unfold fconv. rewrite WM, PF. reflexivity.
  - intros m MS. rewrite MS in WM. destruct WM as [MT _]. rewrite <- C1 in *. clear - C1 MT.
    unfold fconv in *. rewrite MT in *. revert C1. generalize (sent E ic (rev (names (firstn i fs))) name (entries v)) as xs. intros xs.
    generalize d1. induction xs as [|x xs IH]; intros d2; cbn [chain]; [reflexivity|]. destruct (negb ex); cbn [unless]; [discriminate|]. apply IH.
  - intros MN TN. rewrite MN in WM. rewrite TN in WT. destruct (pure ft) eqn:PF; [contradiction|]. rewrite <- C1. unfold fconv. rewrite WM, PF. reflexivity.
Qed.
Print Assumptions C92_field.
(** The table: the last registration of a type counts and the other types keep theirs; nil takes the
    function back. *)
Theorem C92_register : forall tb tp h t, RegisterTypeMapFunc tb tp h tp = h /\ (t <> tp -> RegisterTypeMapFunc tb tp h t = tb t).
Proof.
  intros tb tp h t. unfold RegisterTypeMapFunc. split; [rewrite teq_refl; reflexivity|]. intros N.
  destruct (teq t tp) eqn:Q; [destruct (N (teq_eq _ _ Q))|reflexivity].
Qed.
Print Assumptions C92_register.
Theorem C92_latest : forall E T F ic M PM tb tp g h t d s l,
  ToStdHPtr E T F M PM (RegisterTypeMapFunc (RegisterTypeMapFunc tb tp g) tp h) ic t d s l =
  ToStdHPtr E T F M PM (RegisterTypeMapFunc tb tp h) ic t d s l.
Proof.
  intros. unfold ToStdHPtr. destruct (PM t); [reflexivity|].
  rewrite (hdecode_same E T F ic M _ (RegisterTypeMapFunc tb tp h)); [reflexivity|].
  intros u _. unfold RegisterTypeMapFunc. destruct (teq u tp); reflexivity.
Qed.
Print Assumptions C92_latest.
(** A registration changes nothing for variables in whose type the registered one does not occur as a field
    or element: same answer, same content, same memory, same panics. *)
Theorem C92_others : forall E T F ic M PM tb tp h t d s l, inside tp t = false ->
  ToStdHPtr E T F M PM (RegisterTypeMapFunc tb tp h) ic t d s l = ToStdHPtr E T F M PM tb ic t d s l.
Proof.
  intros E T F ic M PM tb tp h t d s l N. unfold ToStdHPtr. destruct (PM t); [reflexivity|].
  rewrite (hdecode_same E T F ic M _ tb); [reflexivity|]. intros u I. unfold RegisterTypeMapFunc.
  destruct (teq u tp) eqn:Q; [apply teq_eq in Q; congruence|reflexivity].
Qed.
Print Assumptions C92_others.
(** With nothing registered and no methods this is the export of C63. *)
Theorem C92_plain : forall E T F ic t d s l,
  ToStdHPtr E T F (fun _ => None) (fun _ => None) (fun _ => None) ic t d s l = ToStdPtr E T F ic (erase t) d s l.
Proof.
  intros. unfold ToStdHPtr, ToStdPtr. assert (U : erase t = erase (under t)) by (induction t; cbn [under erase]; auto).
  assert (N : forall i u, under t <> HName i u) by (clear; induction t; cbn [under]; auto; discriminate).
  rewrite hdecode_plain. destruct (c_dt (hp s l)); try reflexivity. rewrite U.
  destruct (under t) as [[]| | |i u]; try reflexivity. destruct (N i u eq_refl).
Qed.
Print Assumptions C92_plain.
(** The type of the variable itself is not looked up: a registered function is never asked for it. *)
Fixpoint tsize (t : htype) : nat :=
  match t with
  | HBase _ => 0
  | HName _ t' => tsize t'
  | HSlice t' => S (tsize t')
  | HStruct fs => S (fold_right (fun f n => (tsize (snd f) + n)%nat) 0%nat fs)
  end.
Lemma inside_less tp t : inside tp t = true -> (tsize tp < tsize t)%nat.
Proof.
  induction t as [b|t IH|fs IH|i t IH] using htype_ind'; cbn [inside tsize]; intros H; [discriminate| | |auto].
  - apply orb_prop in H as [H|H]; [apply teq_eq in H; subst; lia|]. specialize (IH H). lia.
  - induction IH as [|f fs H0 _ IH]; cbn [existsb fold_right] in *; [discriminate|]. apply orb_prop in H as [H|H].
    + apply orb_prop in H as [H|H]; [apply teq_eq in H; rewrite H; lia|]. specialize (H0 H). lia.
    + specialize (IH H). lia.
Qed.
Theorem C92_top_refuted : forall E T F ic M PM tb h t d s l,
  ToStdHPtr E T F M PM (RegisterTypeMapFunc tb t h) ic t d s l = ToStdHPtr E T F M PM tb ic t d s l.
Proof.
  intros. apply C92_others. destruct (inside t t) eqn:Q; [|reflexivity]. apply inside_less in Q. lia.
Qed.
Print Assumptions C92_top_refuted.
(** Elements: as soon as a function is registered for [et], or [et] has the method, a field of type []et makes
    the call panic for every non-empty array; without, strings arrive. *)
Lemma one_hfield E T F ic M PM tb name ft d s l u v p : rep (hp s) (Some l) (VObject u [(name, v)]) -> c_kvs (hp s l) = [(name, p)] ->
  PM (HStruct [(name, true, ft)]) = None ->
  ToStdHPtr E T F M PM tb ic (HStruct [(name, true, ft)]) (LStruct [d]) s l =
    do (d', s1) <- hfield E T F ic M tb false d ft s p; Ok (true, LStruct [d'], s1).
Proof.
  intros R K P. destruct (one_entry _ _ _ _ _ R) as [D _]. unfold ToStdHPtr. rewrite P, D. cbn [under]. rewrite hdecode_struct. unfold cell_entries. rewrite D, K.
  cbn [hvisit_loop hfield_loop]. unfold hits. rewrite beq_refl, orb_true_r. cbn [orb negb]. destruct (hfield E T F ic M tb false d ft s p) as [[d' s1]| | |]; reflexivity.
Qed.
Theorem C92_elements_refuted : forall E T F ic M PM tb name et d s l u x xs, rep (hp s) (Some l) (VObject u [(name, VArray (x :: xs))]) ->
  PM (HStruct [(name, true, HSlice et)]) = None -> M (HSlice et) = None -> tb (HSlice et) = None ->
  (tb et <> None \/ M et <> None) -> (exists c ds, d = LSlice c ds) ->
  ToStdHPtr E T F M PM tb ic (HStruct [(name, true, HSlice et)]) (LStruct [d]) s l = Panic.
Proof.
  intros E T F ic M PM tb name et d s l u x xs R P MS TS H (c & ds & ->). destruct (one_entry _ _ _ _ _ R) as (_ & p & K & R1).
  rewrite (one_hfield E T F ic M PM tb name _ _ s l u _ p R K P). unfold hfield. rewrite MS, TS.
  inversion R1 as [| |l' vs DT FA| | | | | | | | | | | | |]; subst. cbn [hdecode]. rewrite DT. inversion FA; subst.
  destruct c; [|reflexivity]. destruct (M et); [reflexivity|]. destruct (tb et); [reflexivity|]. destruct H; congruence.
Qed.
Print Assumptions C92_elements_refuted.
(** A method on the type of a field is called, but on a copy: whatever it does to its receiver is lost. *)
Theorem C92_method_refuted : forall E T F ic M PM tb name ft m d s l u v p s1, rep (hp s) (Some l) (VObject u [(name, v)]) ->
  c_kvs (hp s l) = [(name, p)] -> PM (HStruct [(name, true, ft)]) = None -> M ft = Some m -> m d s p = Ok s1 ->
  ToStdHPtr E T F M PM tb ic (HStruct [(name, true, ft)]) (LStruct [d]) s l = Ok (true, LStruct [d], s1).
Proof.
  intros E T F ic M PM tb name ft m d s l u v p s1 R K P MF Q. rewrite (one_hfield E T F ic M PM tb name _ _ s l u _ p R K P).
  unfold hfield. rewrite MF, Q. reflexivity.
Qed.
Print Assumptions C92_method_refuted.
(** ... a pointer to a type with the method gets every value, objects or not, and the answer is true. *)
Theorem C92_pointer : forall E T F ic M PM tb t m d s l d' s1, PM t = Some m -> m d s l = Ok (d', s1) ->
  ToStdHPtr E T F M PM tb ic t d s l = Ok (true, d', s1).
Proof. intros E T F ic M PM tb t m d s l d' s1 P Q. unfold ToStdHPtr. rewrite P, Q. reflexivity. Qed.
Print Assumptions C92_pointer.

(** A type [Level] on int64 with a function that stores the number of bytes of a string. *)
Definition Level : htype := HName 1 (HBase (BInt 64)).
Definition len_fn (ro : bool) (d : slot) (v : value) : option slot :=
  match v with VString b => if ro then None else Some (LInt (Z.of_nat (List.length b))) | _ => None end.
Definition len_handler : handler := fun ro d s p =>
  match p with
  | Some l => if ro then Panic else Ok (LInt (Z.of_nat (List.length (c_str (hp s l)))), s)
  | None => Panic
  end.
Definition lev_tb : table := RegisterTypeMapFunc (fun _ => None) Level (Some len_handler).
Definition lev_pure (t : htype) : option (bool -> slot -> value -> option slot) := if teq t Level then Some len_fn else None.
Lemma len_handles E : handles E len_handler len_fn.
Proof.
  intros ro d s0 s p v d' C R ST. destruct v; try discriminate C. cbn [len_fn] in C. destruct ro; [discriminate|]. injection C as <-.
  inversion R; subst. unfold len_handler. rewrite (settled_dt E s0 s _ ST) by congruence. eauto.
Qed.
Example C92_case : let fs := [(bs "n", true, HBase (BInt 64)); (bs "T", true, Level)] in
  let s := small_st (bs "T") (mkCell TString 0 false [] [] None 0 (bs "seven") [] []) in
  well e1 (fun _ => false) lev_pure (fun _ => None) lev_tb /\
  rep (hp s) (Some 5%nat) (VObject true [(bs "T", VString (bs "seven"))]) /\ c_dt (hp s 5) = TObject /\
  hconv e1 t0 (fun _ => false) lev_pure false (HStruct fs) false (LStruct [LInt 4; LInt 9]) (VObject true [(bs "T", VString (bs "seven"))]) =
    Some (LStruct [LInt 4; LInt 5]) /\
  ok_map (fun r => fst r) (ToStdHPtr e1 t0 noF (fun _ => None) (fun _ => None) lev_tb false (HStruct fs) (LStruct [LInt 4; LInt 9]) s 5) =
    Some (true, LStruct [LInt 4; LInt 5]) /\
  inside Level (HStruct fs) = true /\ inside Level (HStruct [(bs "n", true, HBase (BInt 64))]) = false.
Proof.
  cbv zeta. split; [|split; [apply (view_rep 3); vm_compute; reflexivity|repeat split; vm_compute; reflexivity]].
  split; [reflexivity|]. intros t. unfold lev_tb, lev_pure, RegisterTypeMapFunc. destruct (teq t Level); [apply len_handles|exact I].
Qed.
Example C92_elements_case : let t := HStruct [(bs "T", true, HSlice (HBase BStr))] in
  let s := small_st (bs "T") (mkCell TArray 0 false [] [] None 0 [] [] [Some 0%nat]) in
  rep (hp s) (Some 5%nat) (VObject true [(bs "T", VArray [VTrue])]) /\
  ok_map (fun r => fst r) (ToStdHPtr e1 t0 noF (fun _ => None) (fun _ => None) (fun _ => None) false t (LStruct [LSlice 0 []]) s 5) =
    Some (true, LStruct [LSlice 1 [LStr (bs "true")]]) /\
  ToStdHPtr e1 t0 noF (fun _ => None) (fun _ => None) (RegisterTypeMapFunc (fun _ => None) (HBase BStr) (Some len_handler)) false t (LStruct [LSlice 0 []]) s 5 = Panic.
Proof. cbv zeta. split; [apply (view_rep 3); vm_compute; reflexivity|]. split; vm_compute; reflexivity. Qed.

(** ** C93 *)
(** [ToStdValue] into a variable of a basic type: the answer is true for every value and the variable holds
    the conversion that the getters make. *)
Theorem C93_scalars : forall E T F s l v w, rep (hp s) (Some l) v ->
  ToStdVar E T F (WInt w) s l = Ok (true, PInt (wrap_int w (int_of E v)), s) /\
  ToStdVar E T F (WUint w) s l = Ok (true, PInt (wrap_uint w (int_of E v)), s) /\
  ToStdVar E T F WBool s l = Ok (true, PBool (bool_of E v), s) /\
  ToStdVar E T F WTime s l = Ok (true, PTime (time_of E T v), s) /\
  ToStdVar E T F WF64 s l = Ok (true, PF64 (dbl_of E v), s).
Proof.
  intros E T F s l v w R. unfold ToStdVar. rewrite (cell_int E _ _ _ R), (cell_bool E _ _ _ R), (cell_time E T _ _ _ R), (cell_dbl E _ _ _ R). auto.
Qed.
Print Assumptions C93_scalars.
Theorem C93_text : forall E T F s l v b, rep (hp s) (Some l) v -> text_of E v = Some b ->
  exists s', ToStdVar E T F WStr s l = Ok (true, PStr b, s') /\ settled E s s'.
Proof.
  intros E T F s l v b R TX. destruct (take_text E F s s l v b (settled_refl E s) R TX) as (s' & Q & ST). exists s'.
  unfold ToStdVar. rewrite Q. auto.
Qed.
Print Assumptions C93_text.
(** Bytes arrive whole (of an extension value without the type code), and nothing else gives bytes. *)
Theorem C93_bytes : forall E T F s l v, rep (hp s) (Some l) v ->
  ToStdVar E T F WBytes s l = Ok (true, PBytes (match v with VBinary _ b => b | VExBinary _ b => tl b | _ => [] end), s).
Proof.
  intros E T F s l v R. unfold ToStdVar, take_bytes. inversion R; subst; match goal with H : c_dt _ = _ |- _ => rewrite H end; reflexivity.
Qed.
Print Assumptions C93_bytes.
(** Integers arrive unchanged exactly when the type of the variable has room for them. *)
Lemma wrap_int_iff w n : 0 < w -> (wrap_int w n = n <-> - 2 ^ (w - 1) <= n < 2 ^ (w - 1)).
Proof.
  intros W. unfold wrap_int. assert (P : 2 ^ w = 2 * 2 ^ (w - 1)) by (rewrite <- Z.pow_succ_r by lia; f_equal; lia).
  assert (P1 : 0 < 2 ^ (w - 1)) by (apply Z.pow_pos_nonneg; lia). rewrite P. set (h := 2 ^ (w - 1)) in *. clearbody h.
  pose proof (Z.mod_pos_bound (n + h) (2 * h)). split; intros H0; [lia|]. rewrite Z.mod_small; lia.
Qed.
Lemma wrap_uint_iff w n : 0 <= w -> (wrap_uint w n = n <-> 0 <= n < 2 ^ w).
Proof.
  intros W. unfold wrap_uint. assert (P1 : 0 < 2 ^ w) by (apply Z.pow_pos_nonneg; lia).
  pose proof (Z.mod_pos_bound n (2 ^ w) P1). split; intros H0; [lia|]. apply Z.mod_small. lia.
Qed.
Theorem C93_room : forall E T F s l e n w, rep (hp s) (Some l) (VInt e n) -> 0 < w ->
  (ToStdVar E T F (WInt w) s l = Ok (true, PInt n, s) <-> - 2 ^ (w - 1) <= n < 2 ^ (w - 1)) /\
  (ToStdVar E T F (WUint w) s l = Ok (true, PInt n, s) <-> 0 <= n < 2 ^ w).
Proof.
  intros E T F s l e n w R W. destruct (C93_scalars E T F s l _ w R) as (Q1 & Q2 & _). rewrite Q1, Q2. cbn [int_of].
  rewrite <- wrap_int_iff by lia. rewrite <- wrap_uint_iff by lia. split; split; intros H; congruence.
Qed.
Print Assumptions C93_room.
(** Outside, the variable silently holds another number, and the answer is still true. *)
Theorem C93_room_refuted : forall E T F s l e n w, rep (hp s) (Some l) (VInt e n) -> 0 < w ->
  (~ - 2 ^ (w - 1) <= n < 2 ^ (w - 1) -> exists m, ToStdVar E T F (WInt w) s l = Ok (true, PInt m, s) /\ m <> n) /\
  (~ 0 <= n < 2 ^ w -> exists m, ToStdVar E T F (WUint w) s l = Ok (true, PInt m, s) /\ m <> n).
Proof.
  intros E T F s l e n w R W. destruct (C93_scalars E T F s l _ w R) as (Q1 & Q2 & _). rewrite Q1, Q2. cbn [int_of].
  split; intros N; eexists; (split; [reflexivity|]).
  - rewrite wrap_int_iff by lia. exact N.
  - rewrite wrap_uint_iff by lia. exact N.
Qed.
Print Assumptions C93_room_refuted.
(** A value that is no number, text or bytes leaves zero or nothing in the variable, with the answer true: it
    cannot be told from a zero. *)
Theorem C93_answer_refuted : forall E T F s l v w, rep (hp s) (Some l) v -> 0 < w ->
  match v with VObject _ _ | VArray _ | VNull | VNan | VInf => True | _ => False end ->
  ToStdVar E T F (WInt w) s l = Ok (true, PInt 0, s) /\ ToStdVar E T F (WUint w) s l = Ok (true, PInt 0, s) /\
  ToStdVar E T F WF64 s l = Ok (true, PF64 0, s) /\ ToStdVar E T F WBool s l = Ok (true, PBool false, s) /\
  ToStdVar E T F WBytes s l = Ok (true, PBytes [], s).
Proof.
  intros E T F s l v w R W K. destruct (C93_scalars E T F s l v w R) as (Q1 & Q2 & Q3 & _ & Q5). rewrite Q1, Q2, Q3, Q5, (C93_bytes E T F s l v R).
  assert (W1 : wrap_int w 0 = 0) by (apply wrap_int_iff; [lia|]; assert (0 < 2 ^ (w - 1)) by (apply Z.pow_pos_nonneg; lia); lia).
  assert (W2 : wrap_uint w 0 = 0) by (apply wrap_uint_iff; [lia|]; assert (0 < 2 ^ w) by (apply Z.pow_pos_nonneg; lia); lia).
  destruct v; try contradiction; cbn [int_of bool_of dbl_of]; rewrite W1, W2; auto.
Qed.
Print Assumptions C93_answer_refuted.
(** A float32 arrives unchanged; a number that is a float64 is narrowed as a field of a struct is (C63). *)
Theorem C93_float : forall E T F s l x, (rep (hp s) (Some l) (VFloat x) -> ToStdVar E T F WF32 s l = Ok (true, PF32 (x mod 2^32), s)) /\
  (rep (hp s) (Some l) (VDouble x) -> ToStdVar E T F WF32 s l = Ok (true, PF32 (x_f64_to_f32 E x), s)).
Proof.
  intros E T F s l x. unfold ToStdVar, Float. split; intros R; inversion R; subst; match goal with H : c_dt _ = _ |- _ => rewrite H end; reflexivity.
Qed.
Print Assumptions C93_float.
Example C93_case : let s := small_st (bs "T") (mkCell TInt 0 false [] [] None 300 [] [] []) in
  rep (hp s) (Some 6%nat) (VInt 0 300) /\ ToStdVar e1 t0 noF (WInt 8) s 6 = Ok (true, PInt 44, s) /\
  ToStdVar e1 t0 noF (WUint 16) s 6 = Ok (true, PInt 300, s) /\
  rep (hp s) (Some 5%nat) (VObject true [(bs "T", VInt 0 300)]) /\ ToStdVar e1 t0 noF (WInt 8) s 5 = Ok (true, PInt 0, s).
Proof. cbv zeta. split; [apply (view_rep 3); vm_compute; reflexivity|]. split; [reflexivity|]. split; [reflexivity|]. split; [apply (view_rep 3); vm_compute; reflexivity|reflexivity]. Qed.
