(** Export to structs. *)
From Verif Require Import Base Values Tactics HeapModel HeapSpec GetModel ExportModel ExportSpec ExportThms.

(** Induction over Go types through the fields. *)
Section Ind.
Variable P : gtype -> Prop.
Hypothesis Hstr : P YStr.
Hypothesis Hint : forall w, P (YInt w).
Hypothesis Huint : forall w, P (YUint w).
Hypothesis Hf32 : P YF32.
Hypothesis Hf64 : P YF64.
Hypothesis Hbool : P YBool.
Hypothesis Htime : P YTime.
Hypothesis Hslice : forall t, P t -> P (YSlice t).
Hypothesis Hstruct : forall fs, Forall (fun f => P (snd f)) fs -> P (YStruct fs).
Hypothesis Hskip : P YSkip.
Fixpoint gtype_ind' (t : gtype) : P t :=
  match t with
  | YStr => Hstr | YInt w => Hint w | YUint w => Huint w | YF32 => Hf32 | YF64 => Hf64 | YBool => Hbool | YTime => Htime
  | YSlice t => Hslice t (gtype_ind' t)
  | YStruct fs => Hstruct fs
      ((fix go (l : list (bytes * bool * gtype)) : Forall (fun f => P (snd f)) l :=
          match l with [] => Forall_nil _ | f :: r => Forall_cons f (gtype_ind' (snd f)) (go r) end) fs)
  | YSkip => Hskip
  end.
End Ind.

Section Struct.
Variable E : env.
Variable T : tenv.
Variable F : st -> nat -> res bytes.
Variable ic : bool.
Notation settled := (settled E).
Notation conv := (conv E T ic).
Notation decode := (decode E T F ic).
Notation hits := (hits E ic).
Notation sent := (sent E ic).

(** ** The loops by name *)
Definition conv_fields (ro : bool) (kvs : list (bytes * value)) : list bytes -> list (bytes * bool * gtype) -> list slot -> option (list slot) :=
  fix go (before : list bytes) (fs : list (bytes * bool * gtype)) (ds : list slot) : option (list slot) :=
    match fs, ds with
    | (name, exported, ft) :: fs', d :: ds' =>
        match chain (conv ft (ro || negb exported)) d (sent before name kvs), go (name :: before) fs' ds' with
        | Some d1, Some ds1 => Some (d1 :: ds1)
        | _, _ => None
        end
    | _, _ => Some ds
    end.
Lemma conv_struct fs ro ds v : v <> VNilP -> conv (YStruct fs) ro (LStruct ds) v =
  match conv_fields ro (entries v) [] fs ds with Some ds' => Some (LStruct ds') | None => None end.
Proof. destruct v; intros N; try reflexivity. contradiction. Qed.
Definition field_loop (ro : bool) (k : bytes) (q : ptr) (s : st) : list (bytes * bool * gtype) -> list slot -> res (list slot * st) :=
  fix field (fs : list (bytes * bool * gtype)) (ds : list slot) : res (list slot * st) :=
    match fs, ds with
    | (name, exported, ft) :: fs', d :: ds' =>
        if hits k name then do (d', s1) <- decode ft (ro || negb exported) d s q; Ok (d' :: ds', s1)
        else do (ds1, s1) <- field fs' ds'; Ok (d :: ds1, s1)
    | _, _ => Ok (ds, s)
    end.
Definition visit_loop (ro : bool) (fs : list (bytes * bool * gtype)) : list (bytes * ptr) -> list slot -> st -> res (list slot * st) :=
  fix visit (kvs : list (bytes * ptr)) (ds : list slot) (s : st) : res (list slot * st) :=
    match kvs with
    | [] => Ok (ds, s)
    | (k, q) :: r => do (ds1, s1) <- field_loop ro k q s fs ds; visit r ds1 s1
    end.
Definition cell_entries (c : cell) : list (bytes * ptr) :=
  match c_dt c with
  | TObject => c_kvs c
  | TArray => map (fun q => ([], q)) (c_arr c)
  | _ => []
  end.
Lemma decode_struct fs ro ds s l : decode (YStruct fs) ro (LStruct ds) s (Some l) =
  do (ds', s1) <- visit_loop ro fs (cell_entries (hp s l)) ds s; Ok (LStruct ds', s1).
Proof. reflexivity. Qed.
Definition elem_loop (et : gtype) : list ptr -> st -> res (list slot * st) :=
  fix go (a : list ptr) (s : st) : res (list slot * st) :=
    match a with
    | [] => Ok ([], s)
    | q :: r => do (x, s1) <- decode et false (zero et) s q; do (xs, s2) <- go r s1; Ok (x :: xs, s2)
    end.

(** ** Field by field and pair by pair *)
Fixpoint step (ro : bool) (k : bytes) (v : value) (fs : list (bytes * bool * gtype)) (ds : list slot) : option (list slot) :=
  match fs, ds with
  | (name, exported, ft) :: fs', d :: ds' =>
      if hits k name then match conv ft (ro || negb exported) d v with Some d1 => Some (d1 :: ds') | None => None end
      else match step ro k v fs' ds' with Some ds1 => Some (d :: ds1) | None => None end
  | _, _ => Some ds
  end.
Lemma sent_cons before name k v kvs : sent before name ((k, v) :: kvs) =
  (if hits k name && negb (existsb (hits k) before) then [v] else []) ++ sent before name kvs.
Proof. unfold ExportSpec.sent. cbn [filter fst]. destruct (_ && _); reflexivity. Qed.
Lemma fields_hit ro k v kvs fs : forall before ds, existsb (hits k) before = true ->
  conv_fields ro ((k, v) :: kvs) before fs ds = conv_fields ro kvs before fs ds.
Proof.
  induction fs as [|[[name ex] ft] fs IH]; intros before [|d ds] B; try reflexivity. cbn [conv_fields].
  fold (conv_fields ro ((k, v) :: kvs)) (conv_fields ro kvs). rewrite sent_cons, B, andb_false_r. cbn [app].
  rewrite IH; [reflexivity|]. cbn [existsb]. rewrite B. apply orb_true_r.
Qed.
Lemma fields_cons ro k v kvs fs : forall before ds ds', existsb (hits k) before = false ->
  conv_fields ro ((k, v) :: kvs) before fs ds = Some ds' ->
  exists ds1, step ro k v fs ds = Some ds1 /\ conv_fields ro kvs before fs ds1 = Some ds'.
Proof.
  induction fs as [|[[name ex] ft] fs IH]; intros before [|d ds] ds' B Q; cbn [step]; try (exists ds'; split; [exact Q|]; injection Q as <-; reflexivity).
  - cbn [conv_fields] in Q. fold (conv_fields ro ((k, v) :: kvs)) in Q. rewrite sent_cons, B in Q. cbn [negb] in Q. rewrite andb_true_r in Q.
    destruct (hits k name) eqn:HN.
    + cbn [app chain] in Q. destruct (conv ft (ro || negb ex) d v) as [d1|]; [|discriminate].
      exists (d1 :: ds). split; [reflexivity|]. cbn [conv_fields]. fold (conv_fields ro kvs).
      rewrite fields_hit in Q; [exact Q|]. cbn [existsb]. rewrite HN. reflexivity.
    + cbn [app] in Q. destruct (chain _ _ _) as [d1|] eqn:C; [|discriminate].
      destruct (conv_fields ro ((k, v) :: kvs) (name :: before) fs ds) as [ds1|] eqn:R; [|discriminate]. injection Q as <-.
      destruct (IH (name :: before) ds ds1) as (dsm & S1 & S2); [cbn [existsb]; rewrite HN; exact B|exact R|].
      rewrite S1. exists (d :: dsm). split; [reflexivity|]. cbn [conv_fields]. fold (conv_fields ro kvs). rewrite C, S2. reflexivity.
Qed.
Lemma fields_nil ro fs : forall before ds, conv_fields ro [] before fs ds = Some ds.
Proof.
  induction fs as [|[[name ex] ft] fs IH]; intros before [|d ds]; try reflexivity. cbn [conv_fields]. fold (conv_fields ro []).
  change (sent before name []) with (@nil value). cbn [chain]. rewrite IH. reflexivity.
Qed.

(** ** Decoding *)
Definition decodes (t : gtype) : Prop := forall ro d s0 s p v d', conv t ro d v = Some d' -> rep (hp s0) p v -> settled s0 s ->
  exists s', decode t ro d s p = Ok (d', s') /\ settled s0 s'.
Lemma step_ok ro k v fs : Forall (fun f => decodes (snd f)) fs -> forall s0 s q ds ds1, step ro k v fs ds = Some ds1 ->
  rep (hp s0) q v -> settled s0 s -> exists s', field_loop ro k q s fs ds = Ok (ds1, s') /\ settled s0 s'.
Proof.
  induction 1 as [|[[name ex] ft] fs DF _ IH]; intros s0 s q [|d ds] ds1 Q R ST; cbn [step] in Q; try (injection Q as <-; exists s; auto; fail).
  cbn [field_loop]. fold (field_loop ro k q s). destruct (hits k name).
  - destruct (conv ft (ro || negb ex) d v) as [d1|] eqn:C; [|discriminate]. injection Q as <-.
    destruct (DF _ _ s0 s q _ _ C R ST) as (s1 & Q1 & S1). cbn [snd] in Q1. rewrite Q1. exists s1. auto.
  - destruct (step ro k v fs ds) as [dsm|] eqn:ST1; [|discriminate]. injection Q as <-.
    destruct (IH s0 s q ds dsm ST1 R ST) as (s1 & Q1 & S1). rewrite Q1. exists s1. auto.
Qed.
Lemma visit_ok ro fs : Forall (fun f => decodes (snd f)) fs -> forall kvs s0 src s ds ds', conv_fields ro kvs [] fs ds = Some ds' ->
  Forall2 (fun a b => fst a = fst b /\ rep (hp s0) (snd a) (snd b)) src kvs -> settled s0 s ->
  exists s', visit_loop ro fs src ds s = Ok (ds', s') /\ settled s0 s'.
Proof.
  intros DF. induction kvs as [|[k v] kvs IH]; intros s0 src s ds ds' Q R ST; inversion R as [|[k' q] ? src' ? [K1 R1] R2]; subst.
  - rewrite fields_nil in Q. injection Q as <-. exists s. auto.
  - cbn [fst snd] in *. subst. apply fields_cons in Q as (ds1 & S1 & Q); [|reflexivity].
    destruct (step_ok ro k v fs DF s0 s q ds ds1 S1 R1 ST) as (s1 & Q1 & ST1). cbn [visit_loop]. fold (visit_loop ro fs). rewrite Q1. cbn [bind].
    apply (IH s0 src' s1 ds1 ds' Q R2 ST1).
Qed.
Lemma elems_ok et : decodes et -> forall l s0 src s ds, all_of (conv et false (zero et)) l = Some ds -> Forall2 (rep (hp s0)) src l -> settled s0 s ->
  exists s', elem_loop et src s = Ok (ds, s') /\ settled s0 s'.
Proof.
  intros DE. induction l as [|v l IH]; intros s0 src s ds Q R ST; inversion R as [|p ? src' ? R1 R2]; subst; cbn [all_of] in Q.
  - injection Q as <-. exists s. auto.
  - destruct (conv et false (zero et) v) as [d|] eqn:C; [|discriminate]. destruct (all_of _ l) as [ds1|] eqn:A; [|discriminate]. injection Q as <-.
    destruct (DE _ _ s0 s p _ _ C R1 ST) as (s1 & Q1 & S1). destruct (IH s0 src' s1 ds1 eq_refl R2 S1) as (s2 & Q2 & S2).
    cbn [elem_loop]. fold (elem_loop et). rewrite Q1. cbn [bind]. rewrite Q2. exists s2. auto.
Qed.
Lemma same_time_eq a b : same_time a b = true -> a = b.
Proof.
  destruct a as [[a1 a2]|], b as [[b1 b2]|]; cbn; try discriminate; auto. intros H. apply andb_prop in H as [A B].
  apply Z.eqb_eq in A, B. subst. reflexivity.
Qed.
Lemma zeqb_eq a b : (a =? b) = true -> a = b. Proof. apply Z.eqb_eq. Qed.
Lemma beqb_eq a b : Bool.eqb a b = true -> a = b. Proof. apply Bool.eqb_prop. Qed.
Lemma unless_some ro d d' : unless ro d = Some d' -> ro = false /\ d = d'.
Proof. destruct ro; cbn; intros H; [discriminate|]. injection H as <-. auto. Qed.
Lemma rep_entries s0 s l v : rep (hp s0) (Some l) v -> settled s0 s ->
  Forall2 (fun a b => fst a = fst b /\ rep (hp s0) (snd a) (snd b)) (cell_entries (hp s l)) (entries v).
Proof.
  intros R ST. destruct (cell_cases E s0 s l v ST R) as [[_ Q]|(b & -> & D & _)]; [rewrite Q|unfold cell_entries; rewrite D; constructor].
  unfold cell_entries. inversion R; subst; match goal with H : c_dt _ = _ |- _ => rewrite H end; cbn [entries]; try constructor; [assumption|].
  match goal with H : Forall2 _ _ _ |- _ => clear - H; induction H as [|a b la lb HR HF IH]; cbn [map]; constructor; [split; [reflexivity|exact HR]|exact IH] end.
Qed.
Definition arr_b (v : value) : bool := match v with VArray _ | VNilP => true | _ => false end.
Lemma conv_slice_other t ro d v : v <> VNilP -> (forall a, v <> VArray a) -> conv (YSlice t) ro d v = Some d.
Proof.
  intros NV NA. assert (H : arr_b v = false) by (destruct v; try reflexivity; exfalso; [apply NV; reflexivity|exact (NA _ eq_refl)]).
  destruct v; try reflexivity; discriminate H.
Qed.
Lemma conv_struct_d fs ro d v d' : conv (YStruct fs) ro d v = Some d' -> exists ds, d = LStruct ds.
Proof.
  intros C. destruct d as [| | | | | | |ds|]; [| | | | | | |exists ds; reflexivity|]; exfalso;
    (assert (C' : None = Some d') by (rewrite <- C; destruct v; reflexivity); discriminate C').
Qed.
Lemma decodes_all t : decodes t.
Proof.
  assert (PTR : forall t ro d s0 s p v d', conv t ro d v = Some d' -> rep (hp s0) p v -> settled s0 s ->
    (forall l, p = Some l -> v <> VNilP -> exists s', decode t ro d s (Some l) = Ok (d', s') /\ settled s0 s') ->
    exists s', decode t ro d s p = Ok (d', s') /\ settled s0 s').
  { intros t' ro d s0 s p v d' C R ST H. destruct p as [l|].
    - apply (H l eq_refl). intros ->. inversion R.
    - inversion R; subst. destruct t'; try discriminate C. injection C as <-. exists s. split; [reflexivity|exact ST]. }
  induction t using gtype_ind'; intros ro d s0 s p v d' C R ST; apply (PTR _ _ _ _ _ _ _ _ C R ST); intros l -> NV; clear PTR.
  - assert (C' : match text_of E v with Some b => unless ro (LStr b) | None => None end = Some d') by (destruct v; try exact C; contradiction).
    destruct (text_of E v) as [b|] eqn:TX; [|discriminate]. apply unless_some in C' as [-> <-].
    destruct (take_text E F s0 s l v b ST R TX) as (s1 & Q & S1). cbn [ExportModel.decode]. rewrite Q. exists s1. auto.
  - assert (C' : (if negb (firm E (int_of E) Z.eqb v) then None else unless ro (LInt (wrap_int w (int_of E v)))) = Some d') by (destruct v; try exact C; contradiction).
    destruct (firm E (int_of E) Z.eqb v) eqn:FM; [|discriminate]. apply unless_some in C' as [-> <-].
    cbn [ExportModel.decode]. rewrite (firm_read E _ _ (Int E) s0 s l v zeqb_eq (cell_int E) ST R FM). exists s. auto.
  - assert (C' : (if negb (firm E (int_of E) Z.eqb v) then None else unless ro (LInt (wrap_uint w (to_u64 (int_of E v))))) = Some d') by (destruct v; try exact C; contradiction).
    destruct (firm E (int_of E) Z.eqb v) eqn:FM; [|discriminate]. apply unless_some in C' as [-> <-].
    cbn [ExportModel.decode]. rewrite (firm_read E _ _ (Int E) s0 s l v zeqb_eq (cell_int E) ST R FM). exists s. auto.
  - assert (C' : (if negb (firm E (dbl_of E) Z.eqb v) then None else unless ro (LF32 (x_f64_to_f32 E (dbl_of E v)))) = Some d') by (destruct v; try exact C; contradiction).
    destruct (firm E (dbl_of E) Z.eqb v) eqn:FM; [|discriminate]. apply unless_some in C' as [-> <-].
    cbn [ExportModel.decode]. rewrite (firm_read E _ _ (Double E) s0 s l v zeqb_eq (cell_dbl E) ST R FM). exists s. auto.
  - assert (C' : (if negb (firm E (dbl_of E) Z.eqb v) then None else unless ro (LF64 (dbl_of E v))) = Some d') by (destruct v; try exact C; contradiction).
    destruct (firm E (dbl_of E) Z.eqb v) eqn:FM; [|discriminate]. apply unless_some in C' as [-> <-].
    cbn [ExportModel.decode]. rewrite (firm_read E _ _ (Double E) s0 s l v zeqb_eq (cell_dbl E) ST R FM). exists s. auto.
  - assert (C' : (if negb (firm E (bool_of E) Bool.eqb v) then None else unless ro (LBool (bool_of E v))) = Some d') by (destruct v; try exact C; contradiction).
    destruct (firm E (bool_of E) Bool.eqb v) eqn:FM; [|discriminate]. apply unless_some in C' as [-> <-].
    cbn [ExportModel.decode]. rewrite (firm_read E _ _ (Bool E) s0 s l v beqb_eq (cell_bool E) ST R FM). exists s. auto.
  - assert (C' : (if negb (firm E (time_of E T) same_time v) then None else unless ro (LTime (time_of E T v))) = Some d') by (destruct v; try exact C; contradiction).
    destruct (firm E (time_of E T) same_time v) eqn:FM; [|discriminate]. apply unless_some in C' as [-> <-].
    cbn [ExportModel.decode]. rewrite (firm_read E _ _ (GoTime E T) s0 s l v same_time_eq (cell_time E T) ST R FM). exists s. auto.
  - assert (NA : (forall a, v <> VArray a) -> d' = d /\ c_dt (hp s l) <> TArray).
    { intros NA. split; [rewrite (conv_slice_other t ro d v NV NA) in C; injection C as <-; reflexivity|].
      destruct (cell_cases E s0 s l v ST R) as [[_ Q]|(b & _ & D & _)]; [rewrite Q|congruence].
      inversion R; subst; try congruence. }
    destruct v; try (destruct NA as [-> N]; [discriminate|]; exists s; split; [|exact ST]; cbn [ExportModel.decode]; destruct (c_dt (hp s l)); try reflexivity; contradiction).
    clear NA. rename l0 into vs. inversion R as [| |l' vs' DT FA| | | | | | | | | | | | |]; subst.
    cbn [ExportModel.decode]. rewrite (settled_dt E _ _ _ ST) by congruence. rewrite DT. cbn [ExportSpec.conv] in C.
    destruct vs as [|v0 vs]; inversion FA as [|q ? src ? R1 R2]; subst.
    { exists s. injection C as <-. auto. }
    destruct d as [| | | | | |[|cap] l0| |]; try (injection C as <-; exists s; auto; fail); [|discriminate].
    destruct ro; [discriminate|].
    assert (G : match all_of (conv t false (zero t)) (v0 :: vs) with Some ds => Some (LSlice (length (v0 :: vs)) ds) | None => None end = Some d' ->
      exists s', (do (ds, s1) <- elem_loop t (q :: src) s; Ok (LSlice (length (q :: src)) ds, s1)) = Ok (d', s') /\ settled s0 s').
    { intros Q. destruct (all_of (conv t false (zero t)) (v0 :: vs)) as [ds|] eqn:A; [|discriminate]. injection Q as <-.
      destruct (elems_ok t IHt (v0 :: vs) s0 (q :: src) s ds A ltac:(constructor; auto) ST) as (s1 & Q1 & S1). rewrite Q1. exists s1.
      split; [|exact S1]. cbn [bind]. cbn [length]. rewrite (F2_len _ _ _ R2). reflexivity. }
    destruct t; try exact (G C); [discriminate|].
    injection C as <-. exists s. split; [|exact ST]. cbn [length]. rewrite (F2_len _ _ _ R2). reflexivity.
  - destruct (conv_struct_d _ _ _ _ _ C) as [ds ->].
    rewrite conv_struct in C by exact NV. destruct (conv_fields ro (entries v) [] fs ds) as [ds'|] eqn:Q; [|discriminate]. injection C as <-.
    change (exists s', decode (YStruct fs) ro (LStruct ds) s (Some l) = Ok (LStruct ds', s') /\ settled s0 s'). rewrite decode_struct.
    destruct (visit_ok ro fs H (entries v) s0 (cell_entries (hp s l)) s ds ds' Q (rep_entries _ _ _ _ R ST) ST) as (s1 & Q1 & S1).
    rewrite Q1. exists s1. auto.
  - assert (C' : Some d = Some d') by (destruct v; exact C). injection C' as <-. exists s. split; [reflexivity|exact ST].
Qed.
End Struct.
