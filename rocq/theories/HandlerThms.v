(** Decoding with registered functions. *)
From Verif Require Import Base Values Tactics HeapModel HeapSpec GetModel ExportModel ExportSpec ExportThms ExportStruct HandlerModel HandlerSpec.

Section Ind.
Variable P : htype -> Prop.
Hypothesis Hbase : forall b, P (HBase b).
Hypothesis Hslice : forall t, P t -> P (HSlice t).
Hypothesis Hstruct : forall fs, Forall (fun f => P (snd f)) fs -> P (HStruct fs).
Hypothesis Hname : forall i t, P t -> P (HName i t).
Fixpoint htype_ind' (t : htype) : P t :=
  match t with
  | HBase b => Hbase b
  | HSlice t => Hslice t (htype_ind' t)
  | HStruct fs => Hstruct fs
      ((fix go (l : list (bytes * bool * htype)) : Forall (fun f => P (snd f)) l :=
          match l with [] => Forall_nil _ | f :: r => Forall_cons f (htype_ind' (snd f)) (go r) end) fs)
  | HName i t => Hname i t (htype_ind' t)
  end.
End Ind.

(** ** Equality of types *)
Lemma beq_true a b : beq a b = true -> a = b.
Proof. apply beq_eq. Qed.
Lemma teq_refl t : teq t t = true.
Proof.
  induction t as [b|t IH|fs IH|i t IH] using htype_ind'; cbn [teq].
  - destruct (base_eq b b); congruence.
  - exact IH.
  - induction IH as [|[[n e] t] fs H _ IH]; [reflexivity|]. cbn [snd] in H. rewrite beq_refl, Bool.eqb_reflx, H. exact IH.
  - rewrite Z.eqb_refl. exact IH.
Qed.
Lemma teq_eq a : forall b, teq a b = true -> a = b.
Proof.
  induction a as [x|t IH|fs IH|i t IH] using htype_ind'; intros [y|u|gs|j u] H; cbn [teq] in H; try discriminate.
  - destruct (base_eq x y); congruence.
  - f_equal. auto.
  - f_equal. revert gs H. induction IH as [|[[n e] t] fs H0 _ IH]; intros [|[[m e'] u] gs] H; try discriminate; [reflexivity|].
    apply andb_prop in H as [H H3]. apply andb_prop in H as [H H2]. apply andb_prop in H as [H H1].
    apply beq_true in H. apply Bool.eqb_prop in H1. apply H0 in H2. cbn [snd] in H2. subst. f_equal. apply IH. exact H3.
  - apply andb_prop in H as [H1 H2]. apply Z.eqb_eq in H1. apply IH in H2. congruence.
Qed.

Section Thms.
Variable E : env.
Variable T : tenv.
Variable F : st -> nat -> res bytes.
Variable ic : bool.
Notation settled := (settled E).
Notation hits := (hits E ic).
Notation sent := (sent E ic).

(** ** The loops by name *)
Section Loops.
Variable M : htype -> option method.
Variable tb : table.
Notation hdecode := (hdecode E T F M tb ic).
Definition hfield (ro : bool) (d : slot) (ft : htype) (s : st) (q : ptr) : res (slot * st) :=
  match M ft, tb ft with
  | Some m, _ => if ro then Panic else do s1 <- m d s q; Ok (d, s1)
  | None, Some h => h ro d s q
  | None, None => hdecode ft ro d s q
  end.
Definition hfield_loop (ro : bool) (k : bytes) (q : ptr) (s : st) : list (bytes * bool * htype) -> list slot -> res (list slot * st) :=
  fix field (fs : list (bytes * bool * htype)) (ds : list slot) : res (list slot * st) :=
    match fs, ds with
    | (name, exported, ft) :: fs', d :: ds' =>
        if hits k name then do (d', s1) <- hfield (ro || negb exported) d ft s q; Ok (d' :: ds', s1)
        else do (ds1, s1) <- field fs' ds'; Ok (d :: ds1, s1)
    | _, _ => Ok (ds, s)
    end.
Definition hvisit_loop (ro : bool) (fs : list (bytes * bool * htype)) : list (bytes * ptr) -> list slot -> st -> res (list slot * st) :=
  fix visit (kvs : list (bytes * ptr)) (ds : list slot) (s : st) : res (list slot * st) :=
    match kvs with
    | [] => Ok (ds, s)
    | (k, q) :: r => do (ds1, s1) <- hfield_loop ro k q s fs ds; visit r ds1 s1
    end.
Lemma hdecode_struct fs ro ds s l : hdecode (HStruct fs) ro (LStruct ds) s (Some l) =
  do (ds', s1) <- hvisit_loop ro fs (cell_entries (hp s l)) ds s; Ok (LStruct ds', s1).
Proof. reflexivity. Qed.
Definition helem_loop (et : htype) : list ptr -> st -> res (list slot * st) :=
  fix go (a : list ptr) (s : st) : res (list slot * st) :=
    match a with
    | [] => Ok ([], s)
    | q :: r => do (x, s1) <- hdecode et false (zero (erase et)) s q; do (xs, s2) <- go r s1; Ok (x :: xs, s2)
    end.
End Loops.

(** ** The table *)
Lemma bind_ext {A B} (a a' : res A) (f f' : A -> res B) : a = a' -> (forall x, f x = f' x) -> bind a f = bind a' f'.
Proof. intros -> H. destruct a'; cbn [bind]; auto. Qed.
(** Two tables that agree on the types inside [t]. *)
Definition same_on (M M' : htype -> option method) (tb tb' : table) (t : htype) : Prop :=
  forall ro d s p, hdecode E T F M tb ic t ro d s p = hdecode E T F M' tb' ic t ro d s p.
Lemma hdecode_same M tb tb' t : (forall u, inside u t = true -> tb u = tb' u) -> same_on M M tb tb' t.
Proof.
  induction t as [b|t IH|fs IH|i t IH] using htype_ind'; intros H ro d s p.
  - reflexivity.
  - assert (Q : tb t = tb' t) by (apply H; cbn [inside]; rewrite teq_refl; reflexivity).
    assert (IH' : same_on M M tb tb' t) by (apply IH; intros u I; apply H; cbn [inside]; rewrite I; apply orb_true_r).
    cbn [hdecode]. rewrite Q. destruct p as [l|]; [|reflexivity]. destruct (c_dt (hp s l)); try reflexivity.
    destruct (c_arr (hp s l)) as [|q a]; [reflexivity|]. destruct d as [| | | | | |[|cap] l0| |]; try reflexivity. destruct ro; [reflexivity|].
    destruct (M t); [reflexivity|]. destruct (tb' t); [reflexivity|].
    assert (EL : forall a s, helem_loop M tb t a s = helem_loop M tb' t a s).
    { clear - IH'. induction a as [|q a IHa]; intros s; [reflexivity|]. cbn [helem_loop]. fold (helem_loop M tb t) (helem_loop M tb' t).
      apply bind_ext; [apply IH'|]. intros [x s1]. apply bind_ext; [apply IHa|]. reflexivity. }
    pose proof (EL (q :: a) s) as EL1. unfold helem_loop in EL1.
    destruct (under t) as [[]| | |]; try reflexivity; (apply bind_ext; [exact EL1|reflexivity]).
  - destruct p as [l|]; [|reflexivity]. destruct d as [| | | | | | |ds|]; try reflexivity. rewrite !hdecode_struct.
    apply bind_ext; [|reflexivity].
    assert (FL : forall k q s ds, hfield_loop M tb ro k q s fs ds = hfield_loop M tb' ro k q s fs ds).
    { intros k q s0 ds0. revert ds0. clear - IH H. induction IH as [|[[n e] t] fs H0 _ IH]; intros ds0; [reflexivity|]. destruct ds0 as [|d ds0]; [reflexivity|].
      cbn [hfield_loop]. fold (hfield_loop M tb ro k q s0) (hfield_loop M tb' ro k q s0). destruct (hits k n).
      - apply bind_ext; [|reflexivity]. unfold hfield.
        assert (Q : tb t = tb' t) by (apply H; cbn [inside existsb snd]; rewrite teq_refl; reflexivity).
        rewrite Q. destruct (M t); [reflexivity|]. destruct (tb' t); [reflexivity|]. cbn [snd] in H0. apply H0.
        intros u I. apply H. cbn [inside existsb snd]. rewrite I, orb_true_r. reflexivity.
      - apply bind_ext; [|reflexivity]. apply IH. intros u I. apply H. cbn [inside existsb] in I |- *. rewrite I. apply orb_true_r. }
    generalize (cell_entries (hp s l)) as kvs. intros kvs. revert ds s. induction kvs as [|[k q] r IHr]; intros ds s; [reflexivity|].
    cbn [hvisit_loop]. fold (hvisit_loop M tb ro fs) (hvisit_loop M tb' ro fs). apply bind_ext; [apply FL|]. intros [ds1 s1]. apply IHr.
  - cbn [hdecode]. apply IH. exact H.
Qed.
(** Without functions and methods this is the decoder of ExportModel.v. *)
Lemma hdecode_plain t : forall ro d s p, hdecode E T F (fun _ => None) (fun _ => None) ic t ro d s p = decode E T F ic (erase t) ro d s p.
Proof.
  induction t as [b|t IH|fs IH|i t IH] using htype_ind'; intros ro d s p.
  - reflexivity.
  - cbn [hdecode erase decode]. destruct p as [l|]; [|reflexivity]. destruct (c_dt (hp s l)); try reflexivity.
    destruct (c_arr (hp s l)) as [|q a]; [reflexivity|]. destruct d as [| | | | | |[|cap] l0| |]; try reflexivity. destruct ro; [reflexivity|].
    assert (EL : forall a s, helem_loop (fun _ => None) (fun _ => None) t a s = elem_loop E T F ic (erase t) a s).
    { clear - IH. induction a as [|q a IHa]; intros s; [reflexivity|]. cbn [helem_loop elem_loop].
      fold (helem_loop (fun _ => None) (fun _ => None) t) (elem_loop E T F ic (erase t)).
      apply bind_ext; [apply IH|]. intros [x s1]. apply bind_ext; [apply IHa|]. reflexivity. }
    pose proof (EL (q :: a) s) as EL1. unfold helem_loop, elem_loop in EL1.
    assert (U : erase t = erase (under t)) by (clear; induction t; cbn [under erase]; auto).
    destruct (under t) as [b|u|fs|i u] eqn:Q.
    + destruct b; cbn [erase erase_base] in U; rewrite U in EL1 |- *; try reflexivity; (apply bind_ext; [exact EL1|reflexivity]).
    + cbn [erase] in U. rewrite U in EL1 |- *. apply bind_ext; [exact EL1|reflexivity].
    + cbn [erase] in U. rewrite U in EL1 |- *. apply bind_ext; [exact EL1|reflexivity].
    + exfalso. clear - Q. induction t; cbn [under] in Q; try discriminate. auto.
  - cbn [erase]. destruct p as [l|]; [|reflexivity]. destruct d as [| | | | | | |ds|]; try reflexivity. rewrite hdecode_struct, decode_struct.
    apply bind_ext; [|reflexivity].
    set (gs := map (fun f => (fst f, erase (snd f))) fs).
    assert (FL : forall k q s ds, hfield_loop (fun _ => None) (fun _ => None) ro k q s fs ds = field_loop E T F ic ro k q s gs ds).
    { intros k q s0 ds0. revert ds0. subst gs. clear - IH. induction IH as [|[[n e] t] fs H0 _ IH]; intros ds0; [reflexivity|]. destruct ds0 as [|d ds0]; [reflexivity|].
      cbn [hfield_loop map fst snd field_loop]. fold (hfield_loop (fun _ => None) (fun _ => None) ro k q s0) (field_loop E T F ic ro k q s0).
      destruct (hits k n); (apply bind_ext; [|reflexivity]).
      - apply H0.
      - apply IH. }
    generalize (cell_entries (hp s l)) as kvs. intros kvs. revert ds s. induction kvs as [|[k q] r IHr]; intros ds s; [reflexivity|].
    cbn [hvisit_loop visit_loop]. fold (hvisit_loop (fun _ => None) (fun _ => None) ro fs) (visit_loop E T F ic ro gs).
    apply bind_ext; [apply FL|]. intros [ds1 s1]. apply IHr.
  - cbn [hdecode erase]. apply IH.
Qed.

(** ** What is decoded *)
Variable meth : htype -> bool.
Variable pure : htype -> option (bool -> slot -> value -> option slot).
Notation hconv := (hconv E T meth pure ic).
(** What a field receives. *)
Definition fconv (ft : htype) (ro : bool) (d : slot) (x : value) : option slot :=
  match meth ft, pure ft with
  | true, _ => unless ro d
  | false, Some f => f ro d x
  | false, None => hconv ft ro d x
  end.
Definition hconv_fields (ro : bool) (kvs : list (bytes * value)) : list bytes -> list (bytes * bool * htype) -> list slot -> option (list slot) :=
  fix go (before : list bytes) (fs : list (bytes * bool * htype)) (ds : list slot) : option (list slot) :=
    match fs, ds with
    | (name, exported, ft) :: fs', d :: ds' =>
        match chain (fconv ft (ro || negb exported)) d (sent before name kvs), go (name :: before) fs' ds' with
        | Some d1, Some ds1 => Some (d1 :: ds1)
        | _, _ => None
        end
    | _, _ => Some ds
    end.
Lemma hconv_struct fs ro ds v : v <> VNilP -> hconv (HStruct fs) ro (LStruct ds) v =
  match hconv_fields ro (entries v) [] fs ds with Some ds' => Some (LStruct ds') | None => None end.
Proof. destruct v; intros N; try reflexivity. contradiction. Qed.
Fixpoint hstep (ro : bool) (k : bytes) (v : value) (fs : list (bytes * bool * htype)) (ds : list slot) : option (list slot) :=
  match fs, ds with
  | (name, exported, ft) :: fs', d :: ds' =>
      if hits k name then match fconv ft (ro || negb exported) d v with Some d1 => Some (d1 :: ds') | None => None end
      else match hstep ro k v fs' ds' with Some ds1 => Some (d :: ds1) | None => None end
  | _, _ => Some ds
  end.
Lemma hfields_hit ro k v kvs fs : forall before ds, existsb (hits k) before = true ->
  hconv_fields ro ((k, v) :: kvs) before fs ds = hconv_fields ro kvs before fs ds.
Proof.
  induction fs as [|[[name ex] ft] fs IH]; intros before [|d ds] B; try reflexivity. cbn [hconv_fields].
  fold (hconv_fields ro ((k, v) :: kvs)) (hconv_fields ro kvs). rewrite sent_cons, B, andb_false_r. cbn [app].
  rewrite IH; [reflexivity|]. cbn [existsb]. rewrite B. apply orb_true_r.
Qed.
Lemma hfields_cons ro k v kvs fs : forall before ds ds', existsb (hits k) before = false ->
  hconv_fields ro ((k, v) :: kvs) before fs ds = Some ds' ->
  exists ds1, hstep ro k v fs ds = Some ds1 /\ hconv_fields ro kvs before fs ds1 = Some ds'.
Proof.
  induction fs as [|[[name ex] ft] fs IH]; intros before [|d ds] ds' B Q; cbn [hstep]; try (exists ds'; split; [exact Q|]; injection Q as <-; reflexivity).
  - cbn [hconv_fields] in Q. fold (hconv_fields ro ((k, v) :: kvs)) in Q. rewrite sent_cons, B in Q. cbn [negb] in Q. rewrite andb_true_r in Q.
    destruct (hits k name) eqn:HN.
    + cbn [app chain] in Q. destruct (fconv ft (ro || negb ex) d v) as [d1|]; [|discriminate].
      exists (d1 :: ds). split; [reflexivity|]. cbn [hconv_fields]. fold (hconv_fields ro kvs).
      rewrite hfields_hit in Q; [exact Q|]. cbn [existsb]. rewrite HN. reflexivity.
    + cbn [app] in Q. destruct (chain _ _ _) as [d1|] eqn:C; [|discriminate].
      destruct (hconv_fields ro ((k, v) :: kvs) (name :: before) fs ds) as [ds1|] eqn:R; [|discriminate]. injection Q as <-.
      destruct (IH (name :: before) ds ds1) as (dsm & S1 & S2); [cbn [existsb]; rewrite HN; exact B|exact R|].
      rewrite S1. exists (d :: dsm). split; [reflexivity|]. cbn [hconv_fields]. fold (hconv_fields ro kvs). rewrite C, S2. reflexivity.
Qed.
Lemma hfields_nil ro fs : forall before ds, hconv_fields ro [] before fs ds = Some ds.
Proof.
  induction fs as [|[[name ex] ft] fs IH]; intros before [|d ds]; try reflexivity. cbn [hconv_fields]. fold (hconv_fields ro []).
  change (sent before name []) with (@nil value). cbn [chain]. rewrite IH. reflexivity.
Qed.

Variable M : htype -> option method.
Variable tb : table.
Hypothesis W : well E meth pure M tb.
Notation hdecode := (hdecode E T F M tb ic).
Definition hdecodes (t : htype) : Prop := forall ro d s0 s p v d', hconv t ro d v = Some d' -> rep (hp s0) p v -> settled s0 s ->
  exists s', hdecode t ro d s p = Ok (d', s') /\ settled s0 s'.
Lemma hfield_ok t : hdecodes t -> forall ro d s0 s p v d', fconv t ro d v = Some d' -> rep (hp s0) p v -> settled s0 s ->
  exists s', hfield M tb ro d t s p = Ok (d', s') /\ settled s0 s'.
Proof.
  intros DT ro d s0 s p v d' C R ST. destruct W as [WM WT]. specialize (WM t). specialize (WT t). unfold fconv in C. unfold hfield.
  destruct (M t) as [m|].
  - destruct WM as [Q PO]. rewrite Q in C. destruct ro; [discriminate|]. injection C as <-. destruct (PO d s0 s p v R ST) as (s1 & Q1 & S1). rewrite Q1. exists s1. auto.
  - rewrite WM in C. destruct (tb t) as [h|], (pure t) as [f|]; try contradiction.
    + apply (WT ro d s0 s p v d' C R ST).
    + apply (DT ro d s0 s p v d' C R ST).
Qed.
Lemma hstep_ok ro k v fs : Forall (fun f => hdecodes (snd f)) fs -> forall s0 s q ds ds1, hstep ro k v fs ds = Some ds1 ->
  rep (hp s0) q v -> settled s0 s -> exists s', hfield_loop M tb ro k q s fs ds = Ok (ds1, s') /\ settled s0 s'.
Proof.
  induction 1 as [|[[name ex] ft] fs DF _ IH]; intros s0 s q [|d ds] ds1 Q R ST; cbn [hstep] in Q; try (injection Q as <-; exists s; auto; fail).
  cbn [hfield_loop]. fold (hfield_loop M tb ro k q s). destruct (hits k name).
  - destruct (fconv ft (ro || negb ex) d v) as [d1|] eqn:C; [|discriminate]. injection Q as <-.
    destruct (hfield_ok ft DF _ _ s0 s q _ _ C R ST) as (s1 & Q1 & S1). rewrite Q1. exists s1. auto.
  - destruct (hstep ro k v fs ds) as [dsm|] eqn:ST1; [|discriminate]. injection Q as <-.
    destruct (IH s0 s q ds dsm ST1 R ST) as (s1 & Q1 & S1). rewrite Q1. exists s1. auto.
Qed.
Lemma hvisit_ok ro fs : Forall (fun f => hdecodes (snd f)) fs -> forall kvs s0 src s ds ds', hconv_fields ro kvs [] fs ds = Some ds' ->
  Forall2 (fun a b => fst a = fst b /\ rep (hp s0) (snd a) (snd b)) src kvs -> settled s0 s ->
  exists s', hvisit_loop M tb ro fs src ds s = Ok (ds', s') /\ settled s0 s'.
Proof.
  intros DF. induction kvs as [|[k v] kvs IH]; intros s0 src s ds ds' Q R ST; inversion R as [|[k' q] ? src' ? [K1 R1] R2]; subst.
  - rewrite hfields_nil in Q. injection Q as <-. exists s. auto.
  - cbn [fst snd] in *. subst. apply hfields_cons in Q as (ds1 & S1 & Q); [|reflexivity].
    destruct (hstep_ok ro k v fs DF s0 s q ds ds1 S1 R1 ST) as (s1 & Q1 & ST1). cbn [hvisit_loop]. fold (hvisit_loop M tb ro fs). rewrite Q1. cbn [bind].
    apply (IH s0 src' s1 ds1 ds' Q R2 ST1).
Qed.
Lemma helems_ok et : hdecodes et -> forall l s0 src s ds, all_of (hconv et false (zero (erase et))) l = Some ds -> Forall2 (rep (hp s0)) src l -> settled s0 s ->
  exists s', helem_loop M tb et src s = Ok (ds, s') /\ settled s0 s'.
Proof.
  intros DE. induction l as [|v l IH]; intros s0 src s ds Q R ST; inversion R as [|p ? src' ? R1 R2]; subst; cbn [all_of] in Q.
  - injection Q as <-. exists s. auto.
  - destruct (hconv et false (zero (erase et)) v) as [d|] eqn:C; [|discriminate]. destruct (all_of _ l) as [ds1|] eqn:A; [|discriminate]. injection Q as <-.
    destruct (DE _ _ s0 s p _ _ C R1 ST) as (s1 & Q1 & S1). destruct (IH s0 src' s1 ds1 eq_refl R2 S1) as (s2 & Q2 & S2).
    cbn [helem_loop]. fold (helem_loop M tb et). rewrite Q1. cbn [bind]. rewrite Q2. exists s2. auto.
Qed.
Lemma hdecodes_all t : hdecodes t.
Proof.
  induction t as [b|t IHt|fs IH|i t IHt] using htype_ind'; intros ro d s0 s p v d' C R ST.
  - apply (decodes_all E T F ic (erase_base b) ro d s0 s p v d' C R ST).
  - destruct p as [l|]; [|inversion R; subst; discriminate C].
    assert (NV : v <> VNilP) by (intros ->; inversion R).
    assert (NA : (forall a, v <> VArray a) -> d' = d /\ c_dt (hp s l) <> TArray).
    { intros NA. split; [destruct v; try (injection C as <-; reflexivity); [contradiction|destruct (NA _ eq_refl)]|].
      destruct (cell_cases E s0 s l v ST R) as [[_ Q]|(b & _ & D & _)]; [rewrite Q|congruence].
      inversion R; subst; congruence. }
    destruct v; try (destruct NA as [-> N]; [discriminate|]; exists s; split; [|exact ST]; cbn [HandlerModel.hdecode]; destruct (c_dt (hp s l)); try reflexivity; contradiction).
    clear NA. rename l0 into vs. inversion R as [| |l' vs' DT FA| | | | | | | | | | | | |]; subst.
    cbn [HandlerModel.hdecode]. rewrite (settled_dt E _ _ _ ST) by congruence. rewrite DT. cbn [HandlerSpec.hconv] in C.
    destruct vs as [|v0 vs]; inversion FA as [|q ? src ? R1 R2]; subst.
    { exists s. injection C as <-. auto. }
    destruct d as [| | | | | |[|cap] l0| |]; try (injection C as <-; exists s; auto; fail); [|discriminate].
    destruct ro; [discriminate|].
    destruct W as [WM WT]. specialize (WM t). specialize (WT t).
    destruct (meth t) eqn:MT; [discriminate|]. destruct (M t); [destruct WM; discriminate|].
    destruct (pure t); [discriminate|]. destruct (tb t); [contradiction|].
    assert (G : match all_of (hconv t false (zero (erase t))) (v0 :: vs) with Some ds => Some (LSlice (length (v0 :: vs)) ds) | None => None end = Some d' ->
      exists s', (do (ds, s1) <- helem_loop M tb t (q :: src) s; Ok (LSlice (length (q :: src)) ds, s1)) = Ok (d', s') /\ settled s0 s').
    { intros Q. destruct (all_of (hconv t false (zero (erase t))) (v0 :: vs)) as [ds|] eqn:A; [|discriminate]. injection Q as <-.
      destruct (helems_ok t IHt (v0 :: vs) s0 (q :: src) s ds A ltac:(constructor; auto) ST) as (s1 & Q1 & S1). rewrite Q1. exists s1.
      split; [|exact S1]. cbn [bind]. cbn [length]. rewrite (F2_len _ _ _ R2). reflexivity. }
    destruct (under t) as [[]| | |]; try exact (G C); [discriminate|].
    injection C as <-. exists s. split; [|exact ST]. cbn [length]. rewrite (F2_len _ _ _ R2). reflexivity.
  - destruct p as [l|]; [|inversion R; subst; discriminate C].
    assert (NV : v <> VNilP) by (intros ->; inversion R).
    assert (D : exists ds, d = LStruct ds).
    { destruct d as [| | | | | | |ds|]; [| | | | | | |exists ds; reflexivity|]; exfalso; destruct v; discriminate C. }
    destruct D as [ds ->]. rewrite hconv_struct in C by exact NV.
    destruct (hconv_fields ro (entries v) [] fs ds) as [ds'|] eqn:Q; [|discriminate]. injection C as <-. rewrite hdecode_struct.
    destruct (hvisit_ok ro fs IH (entries v) s0 (cell_entries (hp s l)) s ds ds' Q (rep_entries E _ _ _ _ R ST) ST) as (s1 & Q1 & S1).
    rewrite Q1. exists s1. auto.
  - cbn [HandlerModel.hdecode HandlerSpec.hconv] in *. apply (IHt _ _ s0 s p v d' C R ST).
Qed.
End Thms.
