(** A struct goes into a value and comes back. *)
From Verif Require Import Base Values Tactics HeapModel HeapSpec GetModel MsgLoadSpec ReflectModel ReflectSpec
  ReflectThms ReflectRoot ExportModel ExportSpec ExportThms ExportStruct StructSpec.

Section Round.
Variable E : env.
Variable T : tenv.
Variable ic : bool.
Notation holds_go := (holds_go E ic).
Notation conv := (conv E T ic).
Notation apart := (apart E ic).

(** ** The loops of the specification *)
Fixpoint holds_list (et : gtype) (l : list goval) (ds : list slot) : Prop :=
  match l, ds with
  | [], [] => True
  | x :: l', y :: ds' => holds_go et x y /\ holds_list et l' ds'
  | _, _ => False
  end.
Fixpoint holds_fields (fs : list (bytes * bool * gtype)) (gs : list (bytes * bool * bool * goval)) (ds : list slot) : Prop :=
  match fs, gs, ds with
  | [], [], [] => True
  | (name, ex, ft) :: fs', (name', ex', iface, x) :: gs', y :: ds' =>
      name' = name /\ ex = true /\ ex' = true /\ iface = false /\ (forall w, ft <> YUint w) /\
      holds_go ft x y /\ holds_fields fs' gs' ds'
  | _, _, _ => False
  end.
Lemma holds_slice et g d : holds_go (YSlice et) g d <-> exists l ds,
  (g = GRSlice false l \/ exists bs, g = GStrs bs /\ l = map (fun b => GSc false (SStr b)) bs) /\ d = LSlice (length l) ds /\ et <> YTime /\ holds_list et l ds.
Proof.
  cbn [StructSpec.holds_go].
  assert (H : forall l ds, (fix go (l : list goval) (ds : list slot) : Prop :=
         match l, ds with
         | [], [] => True
         | x :: l', y :: ds' => holds_go et x y /\ go l' ds'
         | _, _ => False
         end) l ds <-> holds_list et l ds).
  { induction l as [|x l IH]; intros [|y ds]; cbn [holds_list]; try tauto. rewrite IH. tauto. }
  split; intros (l & ds & A & B & C & D); exists l, ds; rewrite ?H in *; tauto.
Qed.
Lemma holds_struct fs g d : holds_go (YStruct fs) g d <-> exists gs ds, g = GStruct gs /\ d = LStruct ds /\
  ForallOrdPairs (fun a b => apart (fst (fst a)) (fst (fst b))) fs /\ holds_fields fs gs ds.
Proof.
  cbn [StructSpec.holds_go].
  assert (H : forall fs gs ds, (fix go (fs : list (bytes * bool * gtype)) (gs : list (bytes * bool * bool * goval)) (ds : list slot) : Prop :=
         match fs, gs, ds with
         | [], [], [] => True
         | (name, ex, ft) :: fs', (name', ex', iface, x) :: gs', y :: ds' =>
             name' = name /\ ex = true /\ ex' = true /\ iface = false /\ (forall w, ft <> YUint w) /\
             holds_go ft x y /\ go fs' gs' ds'
         | _, _, _ => False
         end) fs gs ds <-> holds_fields fs gs ds).
  { induction fs0 as [|[[n e] ft] fs0 IH]; intros [|[[[n' e'] i] x] gs] [|y ds]; cbn [holds_fields]; try tauto. }
  split; intros (gs & ds & A & B & C & D); exists gs, ds; rewrite ?H in *; tauto.
Qed.

(** ** The import keeps such a variable *)
Lemma kept_list l : (fix go l := match l with [] => True | x :: r => kept E (negb false) x /\ go r end) l <-> Forall (kept E true) l.
Proof. induction l as [|x l IH]; split; intros H; auto; [destruct H; constructor; tauto|inversion H; subst; tauto]. Qed.
Definition good_kept (t : gtype) : Prop := forall g d, holds_go t g d -> kept E true g /\ kept E false g.
Lemma names_eq fs : forall gs ds, holds_fields fs gs ds -> map name_of gs = map (fun p => (fst (fst (fst p)), snd (snd p))) (combine fs gs) /\
  map (fun x : bytes * bool * bool * goval => fst (fst (fst x))) gs = map (fun f => fst (fst f)) fs.
Proof.
  induction fs as [|[[n e] ft] fs IH]; intros [|[[[n' e'] i] x] gs] [|y ds] H; cbn [holds_fields] in H; try (destruct H; fail); [auto|].
  destruct H as (-> & -> & -> & -> & _ & _ & H). destruct (IH _ _ H) as [A B]. cbn [map combine fst snd name_of]. rewrite A, B. auto.
Qed.
Lemma clash_free fs : forall gs ds, holds_fields fs gs ds -> ForallOrdPairs (fun a b => apart (fst (fst a)) (fst (fst b))) fs -> no_clash E (map name_of gs).
Proof.
  unfold no_clash. induction fs as [|[[n e] ft] fs IH]; intros [|[[[n' e'] i] x] gs] [|y ds] H P; cbn [holds_fields] in H; try (destruct H; fail); [constructor|].
  destruct H as (-> & -> & -> & -> & _ & _ & H). inversion P as [|? ? P1 P2]; subst. cbn [map]. constructor; [|exact (IH _ _ H P2)].
  destruct (names_eq _ _ _ H) as [_ NE]. rewrite Forall_forall in *. intros [k z] I. apply in_map_iff in I as ([[[k' e2] i2] z2] & Q & I).
  cbn [name_of fst snd] in *. injection Q as -> ->.
  assert (IN : In k (map (fun f => fst (fst f)) fs)) by (rewrite <- NE; apply (in_map (fun x : bytes * bool * bool * goval => fst (fst (fst x)))) in I; exact I).
  apply in_map_iff in IN as (f & <- & IN). destruct (P1 f IN) as (A & B & _). cbn [fst] in *. auto.
Qed.
Definition keeps_field (f : bytes * bool * bool * goval) : Prop :=
  match f with (_, exported, iface, x) =>
    match x with
    | GSc named y => if iface then exported = true /\ kept E false x else sc_kept y /\ not_uint y
    | GPtr (GSc _ y) => if iface then exported = true /\ kept E false x else sc_kept y /\ not_uint y
    | GPtr x' => exported = true /\ if iface then kept E false x else kept E false x'
    | _ => exported = true /\ kept E false x
    end
  end.
Lemma kept_fields fs : (fix go (l : list (bytes * bool * bool * goval)) := match l with
         | [] => True
         | (_, exported, iface, x) :: r =>
             match x with
             | GSc named y => if iface then exported = true /\ kept E false x else sc_kept y /\ not_uint y
             | GPtr (GSc _ y) => if iface then exported = true /\ kept E false x else sc_kept y /\ not_uint y
             | GPtr x' => exported = true /\ if iface then kept E false x else kept E false x'
             | _ => exported = true /\ kept E false x
             end /\ go r
         end) fs <-> Forall keeps_field fs.
Proof.
  induction fs as [|[[[n e] i] x] fs IH]; split; intros H; auto; [destruct H as [H1 H2]; constructor; tauto|].
  inversion H; subst. split; tauto.
Qed.
Lemma pow_63 w : 0 < w <= 64 -> 2 ^ (w - 1) <= 2 ^ 63.
Proof. intros. apply Z.pow_le_mono_r; lia. Qed.
Lemma good_kept_all t : good_kept t.
Proof.
  unfold good_kept. induction t using gtype_ind'; intros g d H0.
  - destruct H0 as (b & -> & _). cbn. unfold sc_kept. cbn. tauto.
  - destruct H0 as (n & -> & _ & W & R). pose proof (pow_63 w W). cbn [kept]. unfold sc_kept. cbn [in_type]. lia.
  - destruct H0 as (n & -> & _ & W & R & R2). cbn [kept]. unfold sc_kept. cbn [in_type]. lia.
  - destruct H0 as (x & -> & _ & R & _). cbn [kept]. unfold sc_kept. cbn [in_type]. lia.
  - destruct H0 as (x & -> & _). cbn. unfold sc_kept. cbn. tauto.
  - destruct H0 as (x & -> & _). cbn. unfold sc_kept. cbn. tauto.
  - destruct H0 as (x & -> & _). cbn. tauto.
  - apply holds_slice in H0 as (l & ds & [-> | (bs & -> & _)] & -> & NT & H); [|cbn; tauto].
    assert (K : Forall (kept E true) l).
    { revert ds H. induction l as [|x l IH]; intros [|y ds] H; cbn [holds_list] in H; try (destruct H; fail); [constructor|]. destruct H as [H1 H2].
      constructor; [apply (IHt _ _ H1)|apply (IH _ H2)]. }
    cbn [kept]. apply kept_list in K. auto.
  - apply holds_struct in H0 as (gs & ds & -> & -> & P & HF).
    assert (K : Forall keeps_field gs).
    { clear P. revert gs ds HF. induction H as [|[[n e] ft] fs G _ IH]; intros [|[[[n' e'] i] x] gs] [|y ds] HF; cbn [holds_fields] in HF; try (destruct HF; fail); [constructor|].
      destruct HF as (_ & _ & -> & -> & NU & HG & HF). constructor; [|apply (IH _ _ HF)]. cbn [snd] in G. pose proof (proj2 (G _ _ HG)) as KX.
      destruct x; cbn [keeps_field]; try (split; [reflexivity|exact KX]).
      - destruct KX as [-> K1]. split; [exact K1|]. destruct x; try exact I. exfalso.
        destruct ft; cbn [StructSpec.holds_go] in HG; try (destruct HG as (? & ? & _); discriminate).
        + exact (NU w eq_refl).
        + destruct HG as (? & ? & [?|(? & ? & ?)] & _); discriminate.
        + destruct HG as (? & ? & ? & _); discriminate.
        + exact HG.
      - exfalso. clear - HG. destruct ft; cbn [StructSpec.holds_go] in HG; try (destruct HG as (? & ? & _); discriminate).
        + destruct HG as (? & ? & [?|(? & ? & ?)] & _); discriminate.
        + destruct HG as (? & ? & ? & _); discriminate.
        + exact HG. }
    apply kept_fields in K. pose proof (clash_free _ _ _ HF P). cbn [kept]. auto.
  - destruct H0.
Qed.

(** ** The export of its tree *)
Lemma low_obj w u kvs : low w = VObject u kvs -> exists kvs', w = VObject u kvs' /\ map (fun kv => (fst kv, low (snd kv))) kvs' = kvs.
Proof. destruct w; cbn [low]; try discriminate. intros H. injection H as <- <-. eauto. Qed.
Lemma low_arr w l : low w = VArray l -> exists l', w = VArray l' /\ map low l' = l.
Proof. destruct w; cbn [low]; try discriminate. intros H. injection H as <-. eauto. Qed.
Lemma hits_refl k : hits E ic k k = true.
Proof. unfold hits. rewrite beq_refl. apply orb_true_r. Qed.
Lemma sent_miss before name kvs : Forall (fun kv => hits E ic (fst kv) name = false) kvs -> sent E ic before name kvs = [].
Proof.
  unfold sent. induction 1 as [|[k v] kvs H _ IH]; [reflexivity|]. cbn [filter fst] in *. rewrite H. exact IH.
Qed.
Lemma sent_one before name a w b : Forall (fun kv => hits E ic (fst kv) name = false) a -> Forall (fun kv => hits E ic (fst kv) name = false) b ->
  Forall (fun n => hits E ic name n = false) before -> sent E ic before name (a ++ (name, w) :: b) = [w].
Proof.
  intros A B C. assert (X : existsb (hits E ic name) before = false).
  { induction C as [|n l Q _ IH]; [reflexivity|]. cbn [existsb]. rewrite Q. exact IH. }
  unfold sent. rewrite filter_app, map_app. fold (sent E ic before name a). rewrite (sent_miss _ _ _ A). cbn [app filter fst].
  rewrite hits_refl, X. cbn [andb negb map snd]. f_equal. fold (sent E ic before name b). apply sent_miss. exact B.
Qed.
Definition back (t : gtype) : Prop := forall g d w, holds_go t g d -> low w = goal E g -> conv t false (zero t) w = Some d.

Lemma to_u64_id n : 0 <= n < 2 ^ 64 -> to_u64 n = n.
Proof. intros. unfold to_u64. apply Z.mod_small. lia. Qed.
Lemma list_back et : back et -> forall l ds ws, holds_list et l ds -> map low ws = map (goal E) l ->
  all_of (conv et false (zero et)) ws = Some ds /\ length ws = length l.
Proof.
  intros B. induction l as [|x l IH]; intros [|y ds] [|w ws] H Q; cbn [holds_list map all_of length] in *; try (destruct H; fail); try discriminate; [auto|].
  destruct H as [H1 H2]. injection Q as Q1 Q2. rewrite (B _ _ _ H1 Q1). destruct (IH _ _ H2 Q2) as [-> ->]. auto.
Qed.
Lemma fields_back fs : Forall (fun f => back (snd f)) fs -> forall gs ds pre ws before,
  holds_fields fs gs ds -> ForallOrdPairs (fun a b => apart (fst (fst a)) (fst (fst b))) fs ->
  map (fun kv => (fst kv, low (snd kv))) ws = map (fun f => (fst (fst (fst f)), goal E (snd f))) gs ->
  Forall (fun kv => Forall (fun f => hits E ic (fst kv) (fst (fst f)) = false) fs) pre ->
  Forall (fun n => Forall (fun f => hits E ic (fst (fst f)) n = false) fs) before ->
  conv_fields E T ic false (pre ++ ws) before fs (map (fun f => zero (snd f)) fs) = Some ds.
Proof.
  induction 1 as [|[[n e] ft] fs B _ IH]; intros [|[[[n' e'] i] x] gs] [|y ds] pre ws before HF P Q PRE BEF; cbn [holds_fields] in HF; try (destruct HF; fail).
  - reflexivity.
  - destruct HF as (-> & -> & -> & -> & _ & HG & HF). inversion P as [|? ? P1 P2]; subst. destruct ws as [|[k w] ws]; [discriminate|].
    cbn [map fst snd] in Q. injection Q as -> Q1 Q2. cbn [map snd conv_fields]. fold (conv_fields E T ic false).
    assert (M2 : Forall (fun kv => hits E ic (fst kv) n = false) ws).
    { destruct (names_eq _ _ _ HF) as [_ NE]. assert (KE : map fst ws = map (fun f => fst (fst f)) fs).
      { rewrite <- NE. apply (f_equal (map fst)) in Q2. rewrite !map_map in Q2. exact Q2. }
      apply Forall_forall. intros kv I. apply (in_map fst) in I. rewrite KE in I. apply in_map_iff in I as (f & <- & I).
      rewrite Forall_forall in P1. apply (P1 f I). }
    rewrite (sent_one before n pre w ws).
    + cbn [chain orb negb]. cbn [snd] in B. rewrite (B _ _ _ HG Q1).
      replace (pre ++ (n, w) :: ws) with ((pre ++ [(n, w)]) ++ ws) by (rewrite <- app_assoc; reflexivity).
      rewrite (IH gs ds (pre ++ [(n, w)]) ws (n :: before) HF P2 Q2); [reflexivity| |].
      * apply Forall_app. split; [rewrite Forall_forall in *; intros kv I; specialize (PRE kv I); inversion PRE; subst; assumption|].
        constructor; [|constructor]. cbn [fst]. rewrite Forall_forall in *. intros f I. apply (P1 f I).
      * constructor; [rewrite Forall_forall in *; intros f I; apply (P1 f I)|].
        rewrite Forall_forall in *. intros m I. specialize (BEF m I). inversion BEF; subst; assumption.
    + rewrite Forall_forall in *. intros kv I. specialize (PRE kv I). inversion PRE; subst; assumption.
    + exact M2.
    + rewrite Forall_forall in *. intros m I. specialize (BEF m I). inversion BEF; subst; assumption.
Qed.
Lemma back_all t : back t.
Proof.
  unfold back. induction t using gtype_ind'; intros g d v H0 Q.
  - destruct H0 as (b & -> & ->). destruct v; try discriminate Q. injection Q as ->. reflexivity.
  - destruct H0 as (n & -> & -> & W & R). destruct v; try discriminate Q. injection Q as -> ->. cbn. do 2 f_equal. unfold wrap_int.
    rewrite Z.mod_small; [lia|]. assert (2 ^ w = 2 * 2 ^ (w - 1)) by (rewrite <- Z.pow_succ_r by lia; f_equal; lia). lia.
  - destruct H0 as (n & -> & -> & W & R & R2). destruct v; try discriminate Q. injection Q as -> ->. cbn [ExportSpec.conv firm negb unless int_of].
    do 2 f_equal. unfold wrap_uint. rewrite to_u64_id by lia. apply Z.mod_small. lia.
  - destruct H0 as (x & -> & -> & R & F). destruct v; try discriminate Q. cbn [low goal sc_goal] in Q. assert (Q0 : raw mod 2 ^ 32 = x) by congruence.
    cbn [ExportSpec.conv firm negb unless dbl_of]. rewrite Q0, F. reflexivity.
  - destruct H0 as (x & -> & ->). destruct v; try discriminate Q. injection Q as ->. reflexivity.
  - destruct H0 as (b & -> & ->). destruct b, v; try discriminate Q; reflexivity.
  - destruct H0 as (x & -> & -> & R). destruct v; try discriminate Q. injection Q as ->. cbn [ExportSpec.conv firm negb unless time_of dbl_of].
    rewrite R. reflexivity.
  - apply holds_slice in H0 as (l & ds & GG & -> & NT & H).
    assert (Q' : low v = VArray (map (goal E) l)).
    { rewrite Q. destruct GG as [-> | (bs & -> & ->)]; [reflexivity|]. cbn [goal]. rewrite map_map. reflexivity. }
    apply low_arr in Q' as (ws & -> & Q'). destruct (list_back t IHt l ds ws H Q') as [A L]. cbn [ExportSpec.conv zero].
    destruct ws as [|w ws].
    { destruct l; [|discriminate L]. destruct ds; [|destruct H]. reflexivity. }
    destruct t; try (rewrite A, L; reflexivity); [congruence|]. destruct l; [discriminate L|]. destruct ds; [destruct H|]. destruct H as [[] _].
  - apply holds_struct in H0 as (gs & ds & -> & -> & P & HF). cbn [goal] in Q. apply low_obj in Q as (ws & -> & Q).
    cbn [zero]. rewrite conv_struct by discriminate. cbn [entries].
    pose proof (fields_back fs H gs ds [] ws [] HF P Q ltac:(constructor) ltac:(constructor)) as FB. cbn [app] in FB. rewrite FB. reflexivity.
  - destruct H0.
Qed.

Theorem round_trip G F s l fs gs d : wf s -> live s l -> (5 <= l)%nat -> holds_go (YStruct fs) (GStruct gs) d ->
  exists s1 s2, SetValue E G s l (GStruct gs) = Ok s1 /\ ToStdPtr E T F ic (YStruct fs) (zero (YStruct fs)) s1 l = Ok (true, d, s2) /\ settled E s1 s2.
Proof.
  intros W L L5 H. pose proof (proj2 (good_kept_all _ _ _ H)) as K.
  destruct (set_root E G s l (GStruct gs) W L L5 K) as (s1 & Q1 & _ & (w & R & LW) & _); [intros x [X|X]; discriminate|].
  pose proof (back_all _ _ _ _ H LW) as C.
  destruct (decodes_all E T F ic _ _ _ s1 s1 (Some l) w d C R (settled_refl E s1)) as (s2 & Q2 & S2).
  exists s1, s2. split; [exact Q1|]. split; [|exact S2]. unfold ToStdPtr.
  assert (D : c_dt (hp s1 l) = TObject). { destruct (low_obj w _ _ LW) as (kvs' & -> & _). inversion R; subst; assumption. }
  rewrite D, Q2. reflexivity.
Qed.
End Round.
