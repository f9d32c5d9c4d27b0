(** Importing Go values: the kept ones, the order of iteration, and the value itself as target. *)
From Coq Require Import Permutation.
From Verif Require Import Base Values Tactics HeapModel MsgLoadModel ReflectModel ReflectInd HeapSpec MsgLoadSpec ReflectSpec
  HeapBase HeapConf HeapGet HeapCalls HeapObj HeapForce HeapClone HeapMap HeapBuild HeapTyped ReflectThms.

Section Kept.
Variable E : env.

Lemma gather_map {A} (tv : A -> option value) (gv : A -> value) kvs : (forall kv, In kv kvs -> tv (snd kv) = Some (gv (snd kv))) ->
  gather tv kvs = map (fun kv => (fst kv, gv (snd kv))) kvs.
Proof.
  induction kvs as [|[k x] kvs IH]; intros H; [reflexivity|]. cbn [map fst snd]. rewrite <- IH by (intros; apply H; right; auto).
  pose proof (H (k, x) (or_introl eq_refl)) as Q. cbn [snd] in Q. cbn [gather]. rewrite Q. reflexivity.
Qed.
Lemma gatherl_map {A} (tv : A -> option value) (gv : A -> value) l : (forall x, In x l -> tv x = Some (gv x)) ->
  gatherl tv l = map gv l.
Proof.
  induction l as [|x l IH]; intros H; [reflexivity|]. cbn [map]. rewrite <- IH by (intros; apply H; right; auto).
  cbn [gatherl]. rewrite (H x (or_introl eq_refl)). reflexivity.
Qed.
Lemma gatherf_map tv (gv : goval -> value) fs : (forall k ex ifc x, In (k, ex, ifc, x) fs -> tv ex ifc x = Some (gv x)) ->
  gatherf tv fs = map (fun f => (fst (fst (fst f)), gv (snd f))) fs.
Proof.
  induction fs as [|[[[k ex] ifc] x] fs IH]; intros H; [reflexivity|]. cbn [map fst snd]. rewrite <- IH by (intros; eapply H; right; eauto).
  cbn [gatherf]. rewrite (H k ex ifc x (or_introl eq_refl)). reflexivity.
Qed.
Lemma kept_type x : sc_kept x -> in_type x /\ sc_tree x = sc_goal x.
Proof.
  intros [T K]. split; [exact T|]. destruct x; cbn [sc_tree sc_goal in_type] in *; auto; rewrite i64_u64 by lia; reflexivity.
Qed.

Definition field_kept (f : bytes * bool * bool * goval) : Prop :=
  match f with (_, exported, iface, x) =>
    match x with
    | GSc named y => if iface then exported = true /\ kept E false x else sc_kept y /\ not_uint y
    | GPtr (GSc _ y) => if iface then exported = true /\ kept E false x else sc_kept y /\ not_uint y
    | GPtr x' => exported = true /\ if iface then kept E false x else kept E false x'
    | _ => exported = true /\ kept E false x
    end
  end.
Definition elem_kept (iface : bool) (kv : bytes * goval) : Prop :=
  match kv with (_, x) =>
    match x with
    | GSc named y => if iface then kept E false x else sc_kept y
    | GPtr (GSc _ y) => if iface then kept E false x else sc_kept y
    | GPtr x' => if iface then kept E false x else kept E false x'
    | _ => kept E false x
    end
  end.
Lemma kept_struct rv fs : kept E rv (GStruct fs) <-> no_clash E (map name_of fs) /\ Forall field_kept fs.
Proof.
  cbn [kept]. apply and_iff_compat_l. induction fs as [|[[[k ex] ifc] x] fs IH]; [split; constructor|].
  rewrite IH. split; [intros [? ?]; constructor; auto|intros H; inversion H; auto].
Qed.
Lemma kept_rmap rv ifc kvs : kept E rv (GRMap ifc kvs) <-> kvs <> [] /\ no_clash E kvs /\ Forall (elem_kept ifc) kvs.
Proof.
  cbn [kept]. apply and_iff_compat_l. apply and_iff_compat_l. induction kvs as [|[k x] kvs IH]; [split; constructor|].
  rewrite IH. split; [intros [? ?]; constructor; auto|intros H; inversion H; auto].
Qed.

Definition good (g : goval) : Prop := forall rv idx, kept E rv g -> tame E rv idx g /\ tree E rv g = Some (goal E g).
Lemma kept_good g : and_below good g.
Proof.
  induction g using goval_ind'; try (split; [|intros; discriminate]; intros rv idx K; cbn [kept] in K; try (destruct K; fail)).
  - destruct K as [-> K]. destruct (kept_type x K) as [T Q]. cbn [tame tree goal]. rewrite Q. auto.
  - split; reflexivity.
  - split; reflexivity.
  - destruct K as [NC K]. apply conj_in in K. rewrite Forall_forall in H, K. split.
    + cbn [tame]. split; [exact NC|]. apply conj_in. apply Forall_forall. intros kv I. apply (proj1 (H _ I) false false (K _ I)).
    + cbn [tree goal]. rewrite (gather_map _ (goal E)); [reflexivity|]. intros kv I. apply (proj1 (H _ I) false false (K _ I)).
  - split; [exact K|]. cbn [tree goal]. rewrite (gather_map _ VString); auto.
  - destruct K as [NC K]. split; [split; auto|]. cbn [tree goal]. rewrite (gather_map _ (VInt 0)); auto. intros kv I.
    rewrite Forall_forall in K. pose proof (K _ I) as R. cbn [in_type] in R. cbn [sc_tree]. rewrite i64_u64 by lia. reflexivity.
  - apply conj_in in K. rewrite Forall_forall in H, K. split.
    + cbn [tame]. apply conj_in. apply Forall_forall. intros x I. apply (proj1 (H _ I) false true (K _ I)).
    + cbn [tree goal]. rewrite (gatherl_map _ (goal E)); [reflexivity|]. intros x I. apply (proj1 (H _ I) false true (K _ I)).
  - split; [exact K|]. cbn [tree goal]. rewrite (gatherl_map _ VString); auto.
  - apply (kept_struct rv) in K as [NC K]. rewrite Forall_forall in H, K.
    assert (X : forall k ex ifc x, In (k, ex, ifc, x) fs -> field_tame E ex ifc x /\
      (if ifc then if ex then tree E false x else None
       else match x with
           | GNilPtr _ => None
           | GSc _ y | GPtr (GSc _ y) => Some (sc_tree y)
           | GPtr x' => if ex then tree E false x' else None
           | _ => if ex then tree E false x else None
           end) = Some (goal E x)).
    { intros k ex ifc x I. pose proof (K _ I) as KF. destruct (H _ I) as [M1 M2]. cbn [field_kept snd] in KF, M1, M2. unfold field_tame.
      destruct x as [|n y|t|b|m|m|m|l|l|f1|i1 m|i1 l|g'|b1|].
      2:{ destruct ifc; [destruct KF as [-> KF]; exact (M1 false false KF)|]. destruct KF as [KF NU].
          destruct (kept_type y KF) as [T Q]. cbn [goal]. rewrite Q. auto. }
      12:{ destruct g' as [|n y|t|b|m|m|m|l|l|f1|i1 m|i1 l|g'|b1|].
           2:{ destruct ifc; [destruct KF as [-> KF]; exact (M1 false false KF)|]. destruct KF as [KF NU].
               destruct (kept_type y KF) as [T Q]. cbn [goal]. rewrite Q. auto. }
           all: destruct KF as [-> KF]; destruct ifc; [exact (M1 false false KF)|exact (M2 _ eq_refl false false KF)]. }
      12:{ destruct KF as [-> KF]. discriminate. }
      all: destruct KF as [-> KF]; destruct ifc; exact (M1 false false KF). }
    split.
    + apply tame_struct. split; [exact NC|]. apply Forall_forall. intros [[[k ex] ifc] x] I. apply (X _ _ _ _ I).
    + cbn [tree goal]. rewrite (gatherf_map _ (goal E)); [reflexivity|]. intros k ex ifc x I. apply (X _ _ _ _ I).
  - apply (kept_rmap rv) in K as [NE [NC K]]. rewrite Forall_forall in H, K.
    assert (X : forall kv, In kv kvs -> elem_tame E i (snd kv) /\
      (if i then tree E false (snd kv)
       else match snd kv with
           | GNilPtr _ => None
           | GSc _ y | GPtr (GSc _ y) => Some (sc_tree y)
           | GPtr x' => tree E false x'
           | _ => tree E false (snd kv)
           end) = Some (goal E (snd kv))).
    { intros [k x] I. pose proof (K _ I) as KF. destruct (H _ I) as [M1 M2]. cbn [elem_kept snd] in KF, M1, M2. unfold elem_tame. cbn [snd].
      destruct x as [|n y|t|b|m|m|m|l|l|f1|i1 m|i1 l|g'|b1|].
      2:{ destruct i; [exact (M1 false false KF)|].
          destruct (kept_type y KF) as [T Q]. cbn [goal]. rewrite Q. auto. }
      12:{ destruct g' as [|n y|t|b|m|m|m|l|l|f1|i1 m|i1 l|g'|b1|].
           2:{ destruct i; [exact (M1 false false KF)|].
               destruct (kept_type y KF) as [T Q]. cbn [goal]. rewrite Q. auto. }
           all: destruct i; [exact (M1 false false KF)|exact (M2 _ eq_refl false false KF)]. }
      12:{ discriminate. }
      all: destruct i; exact (M1 false false KF). }
    split.
    + apply tame_rmap. split; [exact NC|]. apply Forall_forall. intros kv I. apply (X _ I).
    + cbn [tree goal]. destruct kvs as [|kv0 kvs0] eqn:QK; [destruct NE; reflexivity|]. rewrite <- QK in *.
      rewrite (gather_map _ (goal E)); [reflexivity|]. intros kv I. apply (X _ I).
  - apply conj_in in K. rewrite Forall_forall in H, K. split.
    + cbn [tame]. apply conj_in. apply Forall_forall. intros x I. apply (proj1 (H _ I) (negb i) true (K _ I)).
    + cbn [tree goal]. rewrite (gatherl_map _ (goal E)); [reflexivity|]. intros x I. apply (proj1 (H _ I) (negb i) true (K _ I)).
  - split; [|intros g' Q; injection Q as <-; exact (proj1 IHg)]. intros rv idx K. cbn [kept tame tree goal] in *.
    destruct rv; [exact (proj1 IHg true idx K)|].
    pose proof (proj1 IHg false idx) as M.
    destruct g as [|n y|t|b|m|m|m|l|l|f1|i1 m|i1 l|g'|b1|]; try (destruct K; fail); try exact (M K).
    destruct y; try (destruct K; fail); destruct n; try (destruct K; discriminate); exact (M K).
  - subst rv. cbn [tame tree goal]. auto.
Qed.
End Kept.

(** ** Another order of iteration *)
Section Perm.
Variable E : env.
Definition opt_perm (a b : option value) : Prop :=
  match a, b with
  | None, None => True
  | Some v, Some w => vperm v w
  | _, _ => False
  end.
Lemma opt_refl a : opt_perm a a.
Proof. destruct a; cbn; auto. constructor. Qed.

Lemma gather_perm {A} (tv : A -> option value) l l' : Permutation l l' -> Permutation (gather tv l) (gather tv l').
Proof.
  intros P. induction P as [|[k x] l l' P IH|[k x] [k' x'] l|l l' l'' P1 IH1 P2 IH2].
  - constructor.
  - cbn [gather]. destruct (tv x); [constructor|]; exact IH.
  - cbn [gather]. destruct (tv x), (tv x'); try apply Permutation_refl. apply perm_swap.
  - eapply perm_trans; eauto.
Qed.
Lemma gather_rel {A} (tv : A -> option value) (l m : list (bytes * A)) :
  Forall2 (fun a b => fst a = fst b /\ opt_perm (tv (snd a)) (tv (snd b))) l m ->
  Forall2 (fun a b => fst a = fst b /\ vperm (snd a) (snd b)) (gather tv l) (gather tv m).
Proof.
  intros F. induction F as [|[k x] [k' x'] l m [Q O] F IH]; [constructor|]. cbn [fst snd] in Q, O. subst k'. cbn [gather].
  destruct (tv x), (tv x'); cbn [opt_perm] in O; try (destruct O; fail); [|exact IH]. constructor; [split; auto|exact IH].
Qed.
Lemma some_keys_len {A B} (l : list A) (m : list B) : List.length l = List.length m -> some_keys l = some_keys m.
Proof. destruct l, m; cbn; intros; try discriminate; reflexivity. Qed.
Lemma obj_perm kvs m kvs' : Forall2 (fun a b => fst a = fst b /\ vperm (snd a) (snd b)) kvs m -> Permutation m kvs' ->
  vperm (obj_of kvs) (obj_of kvs').
Proof.
  intros F P. unfold obj_of. rewrite (some_keys_len kvs kvs'); [eapply vp_obj; eauto|].
  rewrite <- (Permutation_length P). clear P. induction F; cbn; congruence.
Qed.
Lemma gatherl_rel {A} (tv : A -> option value) (l m : list A) :
  Forall2 (fun a b => opt_perm (tv a) (tv b)) l m -> Forall2 vperm (gatherl tv l) (gatherl tv m).
Proof.
  intros F. induction F as [|x x' l m O F IH]; [constructor|]. cbn [gatherl].
  destruct (tv x), (tv x'); cbn [opt_perm] in O; try (destruct O; fail); [|exact IH]. constructor; auto.
Qed.
Lemma kv_refl (l : list (bytes * value)) : Forall2 (fun a b => fst a = fst b /\ vperm (snd a) (snd b)) l l.
Proof. induction l; constructor; auto. split; constructor. Qed.
Lemma Forall2_in_imp {A B} (R S : A -> B -> Prop) l m : Forall2 R l m ->
  (forall a b, In a l -> In b m -> R a b -> S a b) -> Forall2 S l m.
Proof. intros H. induction H; intros F; constructor; [apply F; [left; auto|left; auto|auto]|apply IHForall2; intros; apply F; [right; auto|right; auto|auto]]. Qed.
Lemma ignored_perm g g' : gperm g g' -> ptr_ignored g = ptr_ignored g'.
Proof. intros H. inversion H; reflexivity. Qed.

Definition permuted (g : goval) : Prop := forall g' rv, gperm g g' -> opt_perm (tree E rv g) (tree E rv g').
Lemma perm_tree g : and_below permuted g.
Proof.
  induction g using goval_ind'; try (split; [|intros; discriminate]; intros g' rv K; inversion K; subst; try (apply opt_refl; fail)).
  - cbn [tree opt_perm]. eapply obj_perm; [apply gather_rel|apply gather_perm; eassumption].
    rewrite Forall_forall in H. eapply Forall2_in_imp; [eassumption|]. intros a b I _ [Q R]. split; [exact Q|]. apply (proj1 (H _ I)); auto.
  - cbn [tree opt_perm]. eapply obj_perm; [apply kv_refl|apply gather_perm; assumption].
  - cbn [tree opt_perm]. eapply obj_perm; [apply kv_refl|apply gather_perm; assumption].
  - cbn [tree opt_perm]. apply vp_arr. apply gatherl_rel. rewrite Forall_forall in H.
    eapply Forall2_in_imp; [eassumption|]. intros a b I _ R. apply (proj1 (H _ I)); auto.
  - cbn [tree opt_perm]. rewrite !fields_gather. eapply obj_perm; [apply gather_rel|apply Permutation_refl].
    rewrite Forall_forall in H. match goal with F : Forall2 _ fs _ |- _ => revert F end. intros F.
    assert (F' : Forall2 (fun a b => fst a = fst b /\ permuted (snd a) /\ (forall g', snd a = GPtr g' -> permuted g') /\ gperm (snd a) (snd b)) fs fs').
    { eapply Forall2_in_imp; [exact F|]. intros a b I _ [Q R]. split; [exact Q|]. destruct (H _ I) as [M1 M2]. auto. }
    clear - F'. induction F' as [|[[[k ex] ifc] x] [[[k1 ex1] ifc1] x1] fs fs' (Q & M1 & M2 & R) F IH]; [constructor|].
    cbn [map]. constructor; [|exact IH]. cbn [fst snd fld] in *. injection Q as <- <- <-. split; [reflexivity|].
    destruct ifc; [destruct ex; [apply M1; auto|exact I]|].
    inversion R; subst; try (apply opt_refl; fail); try (destruct ex; [apply M1; auto|exact I]; fail).
    match goal with P : gperm ?a ?b |- _ => rename P into P0 end.
    pose proof (M2 _ eq_refl _ false P0) as M3.
    inversion P0; subst; try (apply opt_refl; fail); (destruct ex; [exact M3|exact I]).
  - match goal with P : Permutation ?m ?k |- _ => rename P into PM end.
    match goal with F : Forall2 _ kvs _ |- _ => rename F into FM end.
    assert (LK : kvs = [] <-> kvs' = []).
    { split; intros ->; [inversion FM; subst; apply Permutation_nil; auto|apply Permutation_sym, Permutation_nil in PM; subst; inversion FM; auto]. }
    cbn [tree]. destruct kvs as [|kv0 kv1]; [rewrite (proj1 LK eq_refl); exact I|].
    destruct kvs' as [|kv0' kv1']; [discriminate (proj2 LK eq_refl)|]. cbn [opt_perm].
    eapply obj_perm; [apply gather_rel|apply gather_perm; exact PM].
    rewrite Forall_forall in H. eapply Forall2_in_imp; [exact FM|]. intros [k x] [k1 x1] IN _ [Q R]. split; [exact Q|].
    destruct (H _ IN) as [M1 M2]. cbn [fst snd] in *.
    destruct i; [apply M1; auto|].
    inversion R; subst; try (apply opt_refl; fail); try (apply M1; auto; fail).
    match goal with P : gperm ?a ?b |- _ => rename P into P0 end.
    pose proof (M2 _ eq_refl _ false P0) as M3.
    inversion P0; subst; try (apply opt_refl; fail); exact M3.
  - cbn [tree opt_perm]. apply vp_arr. apply gatherl_rel. rewrite Forall_forall in H.
    eapply Forall2_in_imp; [eassumption|]. intros a b I _ R. apply (proj1 (H _ I)); auto.
  - split; [|intros g' Q; injection Q as <-; exact (proj1 IHg)]. intros g' rv K. inversion K; subst; [apply opt_refl|].
    match goal with P : gperm g ?b |- _ => rename P into P0 end. cbn [tree]. rewrite (ignored_perm _ _ P0).
    destruct rv; [apply (proj1 IHg); auto|]. destruct (ptr_ignored _); [exact I|apply (proj1 IHg); auto].
Qed.
(** The conditions do not depend on the order either. *)
Lemma no_clash_perm {A} (l l' : list (bytes * A)) : Permutation l l' -> no_clash E l -> no_clash E l'.
Proof.
  unfold no_clash. intros P. induction P as [|x l l' P IH|x y l|l l' l'' P1 IH1 P2 IH2]; intros H; auto.
  - inversion H as [|? ? H1 H2]; subst. constructor; [|auto]. eapply Permutation_Forall; eauto.
  - inversion H as [|? ? H1 H2]; subst. inversion H2 as [|? ? H3 H4]; subst. inversion H1 as [|? ? H5 H6]; subst.
    constructor; [constructor; [tauto|exact H3]|]. constructor; [exact H6|exact H4].
Qed.
Lemma no_clash_keys {A B} (l : list (bytes * A)) (m : list (bytes * B)) : map fst l = map fst m -> no_clash E l -> no_clash E m.
Proof.
  unfold no_clash. revert m. induction l as [|[k x] l IH]; intros [|[k' y] m] Q H; try discriminate; [constructor|].
  cbn [map fst] in Q. injection Q as <- Q. inversion H as [|? ? H1 H2]; subst. constructor; [|apply IH; auto].
  clear - Q H1. revert m Q. induction H1 as [|[k1 x1] l H1 H2 IH]; intros [|[k2 x2] m] Q; try discriminate; [constructor|].
  cbn [map fst] in Q. injection Q as <- Q. constructor; [exact H1|auto].
Qed.
Lemma rel_keys {A B} (R : A -> B -> Prop) (l : list (bytes * A)) (m : list (bytes * B)) :
  Forall2 (fun a b => fst a = fst b /\ R (snd a) (snd b)) l m -> map fst l = map fst m.
Proof. intros F. induction F as [|a b l m [Q _] F IH]; cbn; congruence. Qed.
Lemma Forall_rel {A B} (P : A -> Prop) (Q : B -> Prop) (R : A -> B -> Prop) l m : Forall P l -> Forall2 R l m ->
  (forall a b, In a l -> R a b -> P a -> Q b) -> Forall Q m.
Proof.
  intros FP F. induction F as [|a b l m HR F IH]; intros H; [constructor|]. inversion FP; subst.
  constructor; [eapply H; eauto; left; auto|apply IH; auto]. intros; eapply H; eauto. right; auto.
Qed.
Definition stays_tame (g : goval) : Prop := forall g' rv idx, gperm g g' -> tame E rv idx g -> tame E rv idx g'.
Lemma perm_tame g : and_below stays_tame g.
Proof.
  induction g using goval_ind'; try (split; [|intros; discriminate]; intros g' rv idx K T; inversion K; subst; try assumption).
  - destruct T as [NC T]. apply conj_in in T. rewrite Forall_forall in H.
    match goal with F : Forall2 _ kvs _ |- _ => rename F into FM end.
    split; [eapply no_clash_perm; [eassumption|]; eapply no_clash_keys; [eapply rel_keys; exact FM|exact NC]|].
    apply conj_in. eapply Permutation_Forall; [eassumption|]. eapply Forall_rel; [exact T|exact FM|].
    intros a b I [Q R] TA. eapply (proj1 (H _ I)); eauto.
  - cbn [tame] in *. eapply no_clash_perm; eauto.
  - cbn [tame] in *. destruct T as [NC T]. split; [eapply no_clash_perm; eauto|eapply Permutation_Forall; eauto].
  - cbn [tame] in T. apply conj_in in T. rewrite Forall_forall in H. cbn [tame]. apply conj_in.
    eapply Forall_rel; [exact T|eassumption|]. intros a b I R TA. eapply (proj1 (H _ I)); eauto.
  - apply (tame_struct E rv idx) in T as [NC T]. apply (tame_struct E rv idx). rewrite Forall_forall in H.
    match goal with F : Forall2 _ fs _ |- _ => rename F into FM end. split.
    + eapply no_clash_keys; [|exact NC]. rewrite !map_map. clear - FM. induction FM as [|a b fs fs' [Q _] F IH]; [reflexivity|].
      cbn [map]. f_equal; [unfold name_of; cbn [fst]; rewrite Q; reflexivity|exact IH].
    + eapply Forall_rel; [exact T|exact FM|]. intros [[[k ex] ifc] x] [[[k1 ex1] ifc1] x1] I [Q R] TA.
      cbn [fst snd field_ok] in *. injection Q as <- <- <-. destruct (H _ I) as [M1 M2]. cbn [snd] in M1, M2. unfold field_tame in *.
      destruct ifc; [eapply M1; eauto|].
      inversion R; subst; try assumption; try (eapply M1; eauto; fail).
      match goal with P : gperm ?a ?b |- _ => rename P into P0 end.
      pose proof (M2 _ eq_refl _ false false P0) as M3.
      inversion P0; subst; try assumption; exact (M3 TA).
  - apply (tame_rmap E rv idx) in T as [NC T]. apply (tame_rmap E rv idx). rewrite Forall_forall in H.
    match goal with F : Forall2 _ kvs _ |- _ => rename F into FM end. split.
    + eapply no_clash_perm; [eassumption|]. eapply no_clash_keys; [eapply rel_keys; exact FM|exact NC].
    + eapply Permutation_Forall; [eassumption|]. eapply Forall_rel; [exact T|exact FM|]. intros [k x] [k1 x1] I [Q R] TA.
      cbn [fst snd] in *. destruct (H _ I) as [M1 M2]. cbn [snd] in M1, M2. unfold elem_tame in *.
      destruct i; [eapply M1; eauto|].
      inversion R; subst; try assumption; try (eapply M1; eauto; fail).
      match goal with P : gperm ?a ?b |- _ => rename P into P0 end.
      pose proof (M2 _ eq_refl _ false false P0) as M3.
      inversion P0; subst; try assumption; exact (M3 TA).
  - cbn [tame] in T. apply conj_in in T. rewrite Forall_forall in H. cbn [tame]. apply conj_in.
    eapply Forall_rel; [exact T|eassumption|]. intros a b I R TA. eapply (proj1 (H _ I)); eauto.
  - split; [|intros g' Q; injection Q as <-; exact (proj1 IHg)]. intros g' rv idx K T. inversion K; subst; [exact T|].
    match goal with P : gperm g ?b |- _ => rename P into P0 end. cbn [tame] in *. rewrite <- (ignored_perm _ _ P0).
    destruct rv; [eapply (proj1 IHg); eauto|]. destruct (ptr_ignored g); [exact I|].
    pose proof (proj1 IHg _ false idx P0) as M. inversion P0; subst; try assumption; try (destruct T; fail); exact (M T).
Qed.
End Perm.
