(** [MergeWith] on objects whose entries collide with objects. *)
From Verif Require Import Base Values Tactics HeapModel HeapSpec HeapBase HeapConf HeapGet ApiSpec HeapMap HeapCalls
  HeapObj HeapForce HeapClone HeapEqual HeapMono HeapMerge HeapMergeObj.

Section Deep.
Variable E : env.
Variable G : nat -> nat.
Hypothesis EO : env_ok E.
Notation N := none_set.
Notation same := (key_match E).
Notation pairs := (pairs E).
Notation minv := (minv E).
Notation union := (union same).

(** ** Specification *)
(** What becomes of the map [v] when [w] is merged into it.  Entries of [w] are taken one after the
    other up to the first whose key belongs to an object or array of [v]; an object is merged with the
    object [w] has there, if any, and the rest of [w] is dropped. *)
Definition scalars_only (v pre : list (bytes * value)) : Prop :=
  forall kv kw, In kv v -> In kw pre -> same (fst kv) (fst kw) = true -> scalar (snd kv).
Definition container (x : value) : Prop := match x with VObject _ _ | VArray _ => True | _ => False end.
Definition no_object (x : value) : Prop := match x with VObject _ _ | VNilP => False | _ => True end.
Inductive deep_merge : list (bytes * value) -> list (bytes * value) -> list (bytes * value) -> Prop :=
| dm_flat v w : scalars_only v w -> deep_merge v w (union v w)
| dm_nested v pre k u' new post idx k0 u old r u1 r1 : scalars_only v pre ->
    find_key E v k = Some idx -> nth_error v idx = Some (k0, VObject u old) ->
    deep_merge (unescape_keys E u old) new r -> unescape_keys E u1 r1 = r ->
    deep_merge v (pre ++ (k, VObject u' new) :: post) (set_val idx (VObject u1 r1) (union v pre))
| dm_stop v pre k x post idx k0 old : scalars_only v pre ->
    find_key E v k = Some idx -> nth_error v idx = Some (k0, old) -> container old -> no_object x ->
    deep_merge v (pre ++ (k, x) :: post) (union v pre).
(** The same without the outcome. *)
Inductive nestable : list (bytes * value) -> list (bytes * value) -> Prop :=
| mg_flat v w : scalars_only v w -> nestable v w
| mg_nested v pre k u' new post idx k0 u old : scalars_only v pre ->
    find_key E v k = Some idx -> nth_error v idx = Some (k0, VObject u old) ->
    distinct_keys same (unescape_keys E u old) -> distinct_keys same new ->
    nestable (unescape_keys E u old) new ->
    nestable v (pre ++ (k, VObject u' new) :: post)
| mg_stop v pre k x post idx k0 old : scalars_only v pre ->
    find_key E v k = Some idx -> nth_error v idx = Some (k0, old) -> container old -> no_object x ->
    nestable v (pre ++ (k, x) :: post).
(** Only objects hold pairs. *)
Definition no_leftovers (s : st) (m : nat) : Prop := forall p x, In p (entries s m) -> preach (hp s) p x -> c_dt (hp s x) <> TObject -> c_kvs (hp s x) = [].
(** No two entries of any object below [l] share a cell. *)
Definition deep_sep (s : st) (l : nat) : Prop := forall x, reach (hp s) l x -> c_dt (hp s x) = TObject ->
  forall i j p q, i <> j -> nth_error (entries s x) i = Some p -> nth_error (entries s x) j = Some q -> apart s p q.

(** ** The start *)
Lemma see s z p y : c_dt (hp s z) = TObject -> In p (entries s z) -> preach (hp s) p y -> reach (hp s) z y.
Proof. intros D I (y' & -> & X). eapply reach_trans; [apply reach_child|exact X]. unfold sees. rewrite D. exact I. Qed.
Lemma minv_start s l m u vs u' ws : wf s -> rep (hp s) (Some l) (VObject u vs) -> rep (hp s) (Some m) (VObject u' ws) ->
  plive s (Some l) -> cloneable_graph s m -> separate s l m -> distinct_keys same (unescape_keys E u vs) -> minv s l m (unescape_keys E u vs).
Proof.
  intros W RL RM PL CG [SEP DIS] DV.
  destruct (rep_obj_inv _ _ _ _ RL) as (Dl & -> & FL). destruct (rep_obj_inv _ _ _ _ RM) as (Dm & -> & FM).
  pose proof (good_5 s l W (or_introl Dl)) as L5. pose proof (good_5 s m W (or_introl Dm)) as M5. pose proof (see s) as SEE.
  assert (SELF : forall p, In p (entries s l) -> ~ preach (hp s) p l).
  { intros p I (y & -> & X). apply (rep_acyclic G (hp s) l _ y RL); auto. unfold sees. rewrite Dl. exact I. }
  pose proof (listed_view E (hp s) (c_unesc (hp s l)) _ _ FL) as LI. fold (pairs s l) in LI.
  assert (NE : m <> l). { intros ->. pose proof (DIS l (reach_refl _ _) (reach_refl _ _)). lia. }
  constructor.
  - split; [exact W|split; [apply PL, preach_self|split; [exact Dl|]]]. intros I. apply (SELF _ I), preach_self.
  - pose proof (listed_fst _ _ _ LI) as LF. unfold distinct_keys in *.
    assert (X : forall (a : list (bytes * value)) (b : list (bytes * ptr)), map fst a = map fst b ->
      ForallOrdPairs (fun a b => same (fst a) (fst b) = false) a -> ForallOrdPairs (fun a b => same (fst a) (fst b) = false) b).
    { clear. induction a as [|x a IH]; intros [|y b] M FA; try discriminate; [constructor|]. cbn [map] in M. injection M as M1 M2.
      inversion FA as [|? ? H1 H2]; subst. constructor; [|apply IH; auto]. rewrite <- M1.
      clear - M2 H1. revert b M2. induction a as [|z a IH]; intros [|t b] M2; try discriminate; constructor;
        cbn [map] in M2; injection M2 as M3 M4; inversion H1; subst; [rewrite <- M3; auto|apply IH; auto]. }
    eapply X; [symmetry; exact LF|exact DV].
  - exact LI.
  - intros p I x X. apply PL. exists l. split; [auto|]. eapply SEE; eauto.
  - exact SELF.
  - exact SEP.
  - split; [exact NE|split; [apply (CG m (reach_refl _ _))|exact M5]].
  - intros p I. split; [|split].
    + intros y -> x X. apply CG. eapply SEE; [exact Dm|exact I|exists y; auto].
    + intros X. pose proof (DIS l (reach_refl _ _) (SEE m p l Dm I X)). lia.
    + intros q J x X Y. apply DIS; [eapply SEE; eauto|eapply SEE; eauto].
  - intros q J X. pose proof (DIS m (SEE l q m Dl J X) (reach_refl _ _)). lia.
Qed.
Lemma meets_scalar s l m cv pre : minv s l m cv -> scalars_only cv pre -> meets E s l cv (all_normal pre).
Proof.
  intros MI SC j k0 q old kw Q1 Q2 I SM. unfold all_normal in I. apply in_map_iff in I as (kw0 & <- & I). cbn [fst snd] in *.
  pose proof (SC (k0, old) kw0 (nth_error_In _ _ Q2) I SM) as SV. cbn [snd] in SV.
  destruct (mi_good _ _ _ _ _ MI) as (W & Ll & Dl & _).
  pose proof (proj2 (proj2 (mi_rep _ _ _ _ _ MI) j _ _ Q1 Q2)) as RO. cbn [snd] in RO.
  unfold allowed. destruct q as [o|]; [|inversion RO; subst; contradiction].
  exists o. destruct (const_scalar s o old W RO SV) as [O5 DO]. split; [auto|split; [auto|split; [auto|split]]].
  - intros y Q x X. injection Q as <-.
    assert (x = o) as ->.
    { apply reach_cases in X as [->|(y & Y & _)]; auto. unfold sees in Y. destruct (c_dt (hp s o)) eqn:DD; try contradiction; exfalso; clear - DO; cbn in DO; lia. }
    split; [apply (mi_live _ _ _ _ _ MI (Some o)); [apply (nth_pair_entry E) in Q1; eapply nth_error_In; eauto|apply preach_self]|].
    intros C. exfalso. inversion RO; subst; try contradiction; match goal with H : c_dt (hp s o) = _ |- _ => rewrite H in C; cbn in C; lia end.
  - destruct old; try contradiction; constructor.
Qed.
Lemma coming_head s m i k w ws : coming s m i ((k, w) :: ws) -> exists p, nth_error (c_kvs (hp s m)) i = Some (k, p) /\ rep (hp s) p w.
Proof.
  unfold coming. intros C. inversion C as [|[k1 p] kv kps ws' [A B] H2 H3 H4]; subst. cbn [fst snd] in *. subst k1. exists p. split; [|exact B].
  symmetry in H3. apply skipn_nth in H3 as [Q _]. exact Q.
Qed.

(** ** The entries in front of the object *)
Lemma prefix pre : forall s l m cv i post, minv s l m cv -> coming s m i (pre ++ post) -> Forall (fun kv => clonable (snd kv)) pre ->
  distinct_keys same (pre ++ post) -> meets E s l cv (all_normal pre) ->
  exists n s' added, (forall f path, (n <= f)%nat ->
      mergeObject E G (List.length pre + f) s path MO_Normal l m i None = mergeObject E G f s' path MO_Normal l m (i + List.length pre) None) /\
    minv s' l m (fold_left (step E) (all_normal pre) cv) /\ pairs s' l = pairs s l ++ added /\ hp s' m = hp s m /\
    coming s' m (i + List.length pre) post /\ (forall x, live s x -> live s' x) /\
    (forall x, live s x -> x <> l -> ((5 <= x)%nat -> forall k0 kw, In (k0, Some x) (pairs s l) -> In kw pre -> same k0 (fst kw) = false) -> hp s' x = hp s x).
Proof.
  induction pre as [|[k w] pre IH]; intros s l m cv i post MI CM CL DW ME.
  - exists O, s, []. cbn [List.length app fold_left all_normal map] in *. rewrite Nat.add_0_r, app_nil_r. cbn [Nat.add]. auto 10.
  - inversion CL as [|? ? CW CL']; subst. cbn [snd] in CW. cbn [app] in *. inversion DW as [|? ? NK DW']; subst. rewrite Forall_forall in NK. cbn [fst] in NK.
    destruct (coming_head _ _ _ _ _ _ CM) as (p & NM & RW).
    pose proof (listed_fst _ _ _ (mi_rep _ _ _ _ _ MI)) as LF. destruct (mi_rep _ _ _ _ _ MI) as [LEN RR].
    cbn [all_normal map fst snd] in ME. fold (all_normal pre) in ME.
    assert (NKJ : forall kv, In kv (all_normal pre) -> same k (fst kv) = false).
    { intros kv I. unfold all_normal in I. apply in_map_iff in I as (kw & <- & I). cbn [fst]. apply NK. apply in_or_app. auto. }
    cbn [all_normal map fst snd fold_left]. fold (all_normal pre).
    destruct (find_key E (pairs s l) k) as [idx|] eqn:FK.
    + pose proof FK as FK0. apply (find_key_some E) in FK as (k0 & q & NP & SM).
      destruct (nth_error cv idx) as [[k0' old]|] eqn:NC.
      2:{ apply nth_error_None in NC. assert ((idx < List.length (pairs s l))%nat) by (apply nth_error_Some; congruence). lia. }
      assert (k0' = k0) by (symmetry; exact (proj1 (RR idx _ _ NP NC))). subst k0'.
      destruct (ME idx k0 q old (k, (w, MO_Normal)) NP NC (or_introl eq_refl) SM) as (o & -> & O5 & DO & SO & CO).
      destruct (collide E G EO s l m cv i k p w k0 o old idx MI NM RW CW FK0 NP NC CO O5 DO SO) as (n0 & s1 & ST & MI1 & P1 & M1 & V1 & F1).
      assert (STEP : step E cv (k, (w, MO_Normal)) = set_val idx (VArray [strip old; strip w]) cv).
      { unfold step. cbn [fst snd]. rewrite <- (find_key_fst E _ _ k LF), FK0, NC. reflexivity. }
      assert (FR : forall x, live s x -> x <> l -> Some o <> Some x -> hp s1 x = hp s x) by (intros x X Xl Xo; apply F1; congruence).
      assert (TJ : forall y, Some o = Some y -> (5 <= y)%nat /\ nth_error (entries s l) idx = Some (Some y)).
      { intros y Q. injection Q as <-. split; [exact O5|exact (nth_pair_entry E _ _ _ _ _ NP)]. }
      destruct (IH s1 l m _ (S i) post MI1 (coming_step E G _ _ _ _ _ _ _ _ _ _ MI M1 V1 FR TJ CM) CL' DW') as (n & s' & added & R & MI' & P' & M' & C' & V' & F').
      { apply (meets_step E G EO s s1 l m cv _ k (w, MO_Normal) (all_normal pre) (Some o) idx); auto.
        - intros kx q' Q. rewrite P1, NP in Q. injection Q as <- _. exact SM.
        - intros j NJ a b Qa Qb. rewrite P1 in Qa. rewrite nth_set_val in Qb. rewrite (proj2 (Nat.eqb_neq j idx) NJ) in Qb. auto. }
      exists (n0 + n)%nat, s', added. rewrite STEP. cbn [List.length]. rewrite Nat.add_succ_r, <- Nat.add_succ_l. split.
      { intros f path Lf. cbn [Nat.add]. rewrite (ST None (List.length pre + f)%nat path MO_Normal path) by (try lia; reflexivity). rewrite R by lia. reflexivity. }
      split; [exact MI'|]. split; [rewrite P', P1; reflexivity|]. split; [congruence|]. split; [exact C'|]. split; [intros x X; apply V', V1, X|].
      intros x X Xl NX. assert (HX : hp s1 x = hp s x).
      { apply F1; auto. intros ->. pose proof (NX O5 k0 (k, w) (nth_error_In _ _ NP) (or_introl eq_refl)) as B. cbn [fst] in B. congruence. }
      rewrite F'; auto. intros X5 k1 kw J1 J2. rewrite P1 in J1. apply (NX X5 k1 kw J1). right; auto.
    + destruct (append_one E G EO s l m cv i k p w MI NM RW CW FK) as (n0 & s1 & r & ST & MI1 & P1 & M1 & V1 & F1).
      assert (STEP : step E cv (k, (w, MO_Normal)) = cv ++ [(k, strip w)]).
      { unfold step. cbn [fst snd]. rewrite <- (find_key_fst E _ _ k LF), FK. reflexivity. }
      assert (FR : forall x, live s x -> x <> l -> None <> Some x -> hp s1 x = hp s x) by (intros x X Xl _; apply F1; auto).
      assert (TJ : forall y, None = Some y -> (5 <= y)%nat /\ nth_error (entries s l) (List.length (pairs s l)) = Some (Some y)) by discriminate.
      destruct (IH s1 l m _ (S i) post MI1 (coming_step E G _ _ _ _ _ _ _ _ _ _ MI M1 V1 FR TJ CM) CL' DW') as (n & s' & added & R & MI' & P' & M' & C' & V' & F').
      { apply (meets_step E G EO s s1 l m cv _ k (w, MO_Normal) (all_normal pre) None (List.length (pairs s l))); auto.
        - intros kx q Q. rewrite P1, nth_error_app2, Nat.sub_diag in Q by lia. injection Q as <- _. apply (same_refl E).
        - intros j NJ a b Qa Qb. assert (LT : (j < List.length (pairs s1 l))%nat) by (apply nth_error_Some; congruence).
          rewrite P1, app_length in LT. cbn [List.length] in LT. rewrite P1 in Qa. rewrite nth_error_app1 in Qa by lia. rewrite nth_error_app1 in Qb by lia. auto. }
      exists (n0 + n)%nat, s', ((k, Some r) :: added). rewrite STEP. cbn [List.length]. rewrite Nat.add_succ_r, <- Nat.add_succ_l. split.
      { intros f path Lf. cbn [Nat.add]. rewrite (ST None (List.length pre + f)%nat path MO_Normal) by lia. rewrite R by lia. reflexivity. }
      split; [exact MI'|]. split; [rewrite P', P1, <- app_assoc; reflexivity|]. split; [congruence|]. split; [exact C'|]. split; [intros x X; apply V', V1, X|].
      intros x X Xl NX. rewrite F'; auto. intros X5 k1 kw J1 J2. rewrite P1 in J1. apply in_app_or in J1 as [J1|[J1|[]]].
      * apply (NX X5 k1 kw J1). right; auto.
      * injection J1 as <- _. apply NK. apply in_or_app. auto.
Qed.

(** ** The object *)
Lemma deep_one s l m cv i k n k0 o idx : minv s l m cv ->
  nth_error (c_kvs (hp s m)) i = Some (k, Some n) ->
  find_key E (pairs s l) k = Some idx -> nth_error (pairs s l) idx = Some (k0, Some o) -> c_dt (hp s o) = TObject \/ c_dt (hp s o) = TArray ->
  exists s', (forall f path, mergeObject E G (S f) s path MO_Normal l m i None = mergeObject E G f s' path MO_Normal o n O None) /\
    wf s' /\ pairs s' l = pairs s l /\ entries s' l = entries s l /\ c_dt (hp s' l) = TObject /\
    (forall x, live s x -> live s' x) /\ (forall x, x <> l -> hp s' x = hp s x).
Proof.
  intros MI NM FK NP DO.
  pose proof (mi_good _ _ _ _ _ MI) as (W & Ll & Dl & SF).
  destruct (mi_m _ _ _ _ _ MI) as (NE & LM & M5).
  destruct (obj_index_spec E EO s l k (mi_dist _ _ _ _ _ MI)) as (u' & kvs' & H1 & H2 & H3 & HN & H4).
  destruct (obj_index E s l k) as [ri s1] eqn:OI. cbn [fst snd] in *. rewrite FK in H2. subst ri.
  assert (W1 : wf s1). { pose proof (tr_obj_index N N E s l k W (ok_of_live s l Ll)) as T. rewrite OI in T. apply T. }
  assert (F1 : forall x, x <> l -> hp s1 x = hp s x) by (intros x X; rewrite H1; cbn [set_cell hp]; apply upd_other; auto).
  assert (V1 : forall x, live s x -> live s1 x) by (intros x X; rewrite H1; exact X).
  assert (C1 : hp s1 l = w_obj (hp s l) u' kvs' (c_spare (hp s l))) by (rewrite H1; cbn [set_cell hp]; apply upd_same).
  assert (P1 : pairs s1 l = pairs s l) by (rewrite H1, pairs_set_cell; exact H3).
  assert (EQ1 : entries s1 l = entries s l). { unfold entries. rewrite C1. exact H4. }
  assert (OLDV : match nth_error (c_kvs (hp s1 l)) idx with Some (_, x) => x | None => None end = Some o).
  { pose proof (nth_pair_entry E _ _ _ _ _ NP) as QE. rewrite <- EQ1 in QE. unfold entries in QE. rewrite nth_error_map in QE.
    destruct (nth_error (c_kvs (hp s1 l)) idx) as [[k1 x]|]; cbn in QE; congruence. }
  assert (NO : o <> l).
  { intros ->. apply (mi_self _ _ _ _ _ MI (Some l)); [apply (nth_pair_entry E) in NP; eapply nth_error_In; eauto|apply preach_self]. }
  exists s1. split.
  { intros f path. rewrite merge_S, NM, OI. cbv zeta. rewrite OLDV.
    assert (M1 : hp s1 m = hp s m) by (apply F1; auto). rewrite M1, NM. cbn [decide fst snd]. rewrite (F1 o NO). destruct DO as [DO|DO]; rewrite DO; reflexivity. }
  split; [exact W1|]. split; [exact P1|]. split; [exact EQ1|]. split; [rewrite C1; exact Dl|auto].
Qed.

Lemma find_key_app {A} (a b : list (bytes * A)) k i : find_key E a k = Some i -> find_key E (a ++ b) k = Some i.
Proof.
  revert i. induction a as [|[x y] a IH]; intros i H; cbn [app find_key] in *; [discriminate|]. destruct (same x k); [exact H|].
  destruct (find_key E a k) as [j|]; [|discriminate]. rewrite (IH j eq_refl). exact H.
Qed.
Lemma distinct_app_r {A} (a b : list (bytes * A)) : distinct_keys same (a ++ b) -> distinct_keys same b.
Proof. unfold distinct_keys. induction a as [|x a IH]; intros H; [exact H|]. apply IH. inversion H; auto. Qed.
Lemma distinct_app_l {A} (a b : list (bytes * A)) : distinct_keys same (a ++ b) -> distinct_keys same a.
Proof.
  unfold distinct_keys. induction a as [|x a IH]; intros H; [constructor|]. cbn [app] in H. inversion H as [|? ? H1 H2]; subst. constructor; [|auto].
  apply Forall_app in H1. apply H1.
Qed.
Lemma distinct_before {A} (a b : list (bytes * A)) x kw : distinct_keys same (a ++ x :: b) -> In kw a -> same (fst kw) (fst x) = false.
Proof.
  unfold distinct_keys. induction a as [|y a IH]; intros H I; [destruct I|]. cbn [app] in H. inversion H as [|? ? H1 H2]; subst.
  destruct I as [->|I]; [|auto]. rewrite Forall_forall in H1. apply H1. apply in_or_app. right. left. reflexivity.
Qed.

Lemma prefix_union s l m cv i pre post : minv s l m cv -> coming s m i (pre ++ post) -> Forall (fun kv => clonable (snd kv)) pre ->
  distinct_keys same cv -> distinct_keys same (pre ++ post) -> scalars_only cv pre ->
  exists n s' added, (forall f path, (n <= f)%nat ->
      mergeObject E G (List.length pre + f) s path MO_Normal l m i None = mergeObject E G f s' path MO_Normal l m (i + List.length pre) None) /\
    minv s' l m (union cv pre) /\ pairs s' l = pairs s l ++ added /\ hp s' m = hp s m /\
    coming s' m (i + List.length pre) post /\ (forall x, live s x -> live s' x) /\
    (forall x, live s x -> x <> l -> ((5 <= x)%nat -> forall k0 kw, In (k0, Some x) (pairs s l) -> In kw pre -> same k0 (fst kw) = false) -> hp s' x = hp s x).
Proof.
  intros MI CM CL DV DW SC. destruct (prefix pre s l m cv i post MI CM CL DW (meets_scalar s l m cv pre MI SC)) as (n & s' & added & R & MI' & Rest).
  exists n, s', added. split; [exact R|]. split; [|exact Rest]. rewrite union_is_union_by, <- (fold_union E EO); auto.
  apply distinct_app_l in DW. clear - DW. unfold distinct_keys, all_normal in *. induction DW as [|x a F D IH]; cbn [map]; constructor; auto.
  rewrite Forall_map. exact F.
Qed.

Lemma unchanged s s1 l m v (pre : list (bytes * value)) p : minv s l m v ->
  (forall x, live s x -> x <> l -> ((5 <= x)%nat -> forall k0 kw, In (k0, Some x) (pairs s l) -> In kw pre -> same k0 (fst kw) = false) -> hp s1 x = hp s x) ->
  In p (entries s m) -> forall x, preach (hp s) p x -> hp s1 x = hp s x.
Proof.
  intros MI F1 I x X. destruct (mi_src _ _ _ _ _ MI p I) as (SP & NL & AP). apply F1.
  - destruct X as (y & -> & X). apply (SP y eq_refl x X).
  - intros ->. auto.
  - intros X5 k0 kw J. exfalso. apply (in_map snd) in J. rewrite (entries_pairs E) in J. cbn [snd] in J. pose proof (AP _ J x X (preach_self _ x)). lia.
Qed.

Theorem merge_deep v w : nestable v w -> forall s l m path, minv s l m v -> coming s m O w -> Forall (fun kv => clonable (snd kv)) w ->
  distinct_keys same v -> distinct_keys same w -> deep_sep s l -> no_leftovers s m ->
  exists n s' path' r, mergeObject E G n s path MO_Normal l m O None = Ok (path', s') /\ wf s' /\ c_dt (hp s' l) = TObject /\ listed (hp s') (pairs s' l) r /\ deep_merge v w r /\
    (forall x, live s x -> live s' x) /\ (forall x, live s x -> (x < 5)%nat \/ ~ reach (hp s) l x -> hp s' x = hp s x).
Proof.
  induction 1 as [v w SC|v pre k u' new post idx k0 u old SC FK NV DO DN DM IH|v pre k x0 post idx k0 old SC FK NV CO NX0]; intros s l m path MI CM CL DV DW DS NL.
  - rewrite <- (app_nil_r w) in CM, DW. destruct (prefix_union s l m v O w [] MI CM CL DV DW SC) as (n & s' & added & R & MI' & P' & M' & C' & V' & F').
    destruct (mi_good _ _ _ _ _ MI') as (W' & _ & D' & _). destruct (mi_good _ _ _ _ _ MI) as (W & _ & D & _).
    exists (List.length w + S n)%nat, s', path, (union v w). split; [|split; [exact W'|split; [exact D'|split; [exact (mi_rep _ _ _ _ _ MI')|split; [constructor; exact SC|split; [exact V'|]]]]]].
    + rewrite R by lia. rewrite merge_S. assert (NN : nth_error (c_kvs (hp s' m)) (O + List.length w) = None).
      { unfold coming in C'. inversion C' as [Q|]; subst. apply nth_error_None. symmetry in Q. apply (f_equal (@List.length _)) in Q. rewrite skipn_length in Q. cbn [List.length] in Q. lia. }
      rewrite NN. reflexivity.
    + pose proof (good_5 s l W (or_introl D)) as L5. intros x X NX. apply F'; auto; [intros ->; destruct NX as [NX|NX]; [lia|apply NX; constructor]|]. intros X5 k0 kw J. exfalso.
      destruct NX as [NX|NX]; [lia|]. apply NX. apply (see s l (Some x)); auto; [|apply preach_self].
      rewrite <- (entries_pairs E). apply (in_map snd) in J. exact J.
  - assert (CLP : Forall (fun kv => clonable (snd kv)) pre /\ clonable (VObject u' new)).
    { apply Forall_app in CL as [A B]. split; [exact A|]. exact (Forall_inv B). }
    destruct CLP as [CLP CLN]. apply clonable_obj in CLN.
    destruct (prefix_union s l m v O pre _ MI CM CLP DV DW SC) as (n & s1 & added & R & MI1 & P1 & M1 & C1 & V1 & F1).
    destruct (mi_good _ _ _ _ _ MI) as (W & Ll & D & _). destruct (mi_good _ _ _ _ _ MI1) as (W1 & Ll1 & D1 & _).
    destruct (mi_rep _ _ _ _ _ MI) as [LEN RR]. pose proof (listed_fst _ _ _ (conj LEN RR)) as LF.
    (* the object of the receiver *)
    assert (FK0 : find_key E (pairs s l) k = Some idx) by (rewrite (find_key_fst E _ _ k LF); exact FK).
    pose proof FK0 as FK1. apply (find_key_some E) in FK1 as (k0' & q & NP & SM).
    destruct (RR idx _ _ NP NV) as [KQ RO]. cbn [fst snd] in KQ, RO. subst k0'. destruct q as [o|]; [|inversion RO].
    pose proof (nth_pair_entry E _ _ _ _ _ NP) as NE0. pose proof (nth_error_In _ _ NE0) as IO.
    assert (FKS : find_key E (pairs s1 l) k = Some idx) by (rewrite P1; apply find_key_app; exact FK0).
    assert (NPS : nth_error (pairs s1 l) idx = Some (k0, Some o)) by (rewrite P1; rewrite nth_error_app1; [exact NP|apply nth_error_Some; congruence]).
    (* its cells are as before *)
    assert (FO : forall x, preach (hp s) (Some o) x -> hp s1 x = hp s x).
    { intros x X. apply F1; [apply (mi_live _ _ _ _ _ MI _ IO x X)|intros ->; exact (mi_self _ _ _ _ _ MI _ IO X)|]. intros X5 k1 kw J1 J2.
      apply In_nth_error in J1 as (j & J1). destruct (Nat.eq_dec j idx) as [->|NJ].
      - pose proof (eq_trans (eq_sym NP) J1) as JJ. injection JJ as <- _. rewrite (same_cong E EO _ _ (fst kw) SM), (HeapMap.same_sym E EO).
        exact (distinct_before pre post (k, VObject u' new) kw DW J2).
      - exfalso. pose proof (nth_pair_entry E _ _ _ _ _ J1) as J1'. pose proof (mi_sep _ _ _ _ _ MI j idx _ _ NJ J1' NE0 x (preach_self _ x) X). lia. }
    (* the object of the argument *)
    destruct (coming_head _ _ _ _ _ _ C1) as (pn & NM & RN). destruct pn as [nn|]; [|inversion RN].
    destruct (rep_obj_inv _ _ _ _ RO) as (Do & UO & FLo).
    assert (Do1 : c_dt (hp s1 o) = TObject) by (rewrite FO by apply preach_self; exact Do).
    destruct (deep_one s1 l m _ _ k nn k0 o idx MI1 NM FKS NPS (or_introl Do1)) as (s2 & ST & W2 & P2 & E2 & D2 & V2 & F2).
    assert (IN : In (Some nn) (entries s1 m)). { apply nth_error_In in NM. apply (in_map snd) in NM. exact NM. }
    destruct (mi_src _ _ _ _ _ MI1 _ IN) as (SN & NNL & AP).
    assert (IO1 : In (Some o) (entries s1 l)) by (exact (nth_error_In _ _ (nth_pair_entry E _ _ _ _ _ NPS))).
    pose proof (mi_self _ _ _ _ _ MI1 _ IO1) as OL.
    assert (FO2 : forall x, preach (hp s1) (Some o) x -> hp s2 x = hp s1 x) by (intros x X; apply F2; intros ->; auto).
    assert (FN2 : forall x, preach (hp s1) (Some nn) x -> hp s2 x = hp s1 x) by (intros x X; apply F2; intros ->; auto).
    pose proof (preach_frame _ _ _ FO) as PO1. pose proof (preach_frame _ _ _ FO2) as PO2. pose proof (preach_frame _ _ _ FN2) as PN2.
    assert (PO : forall x, preach (hp s2) (Some o) x <-> preach (hp s) (Some o) x) by (intros x; rewrite PO2; apply PO1).
    assert (FOO : forall x, preach (hp s) (Some o) x -> hp s2 x = hp s x) by (intros x X; rewrite FO2 by (apply PO1; exact X); apply FO, X).
    assert (LR : forall x, reach (hp s2) o x -> preach (hp s) (Some o) x) by (intros x X; apply PO; exists o; auto).
    assert (RO2 : rep (hp s2) (Some o) (VObject u old)) by (apply (rep_frame (hp s)); auto).
    assert (RN2 : rep (hp s2) (Some nn) (VObject u' new)) by (apply (rep_frame (hp s1)); auto).
    assert (DS2 : deep_sep s2 o).
    { intros x X DX i j p q NIJ Qp Qq z Zp Zq. pose proof (LR x X) as X0. rewrite (FOO x X0) in DX. unfold entries in Qp, Qq. rewrite (FOO x X0) in Qp, Qq.
      fold (entries s x) in Qp, Qq. assert (RX : reach (hp s) l x) by (apply (see s l (Some o)); auto).
      assert (SUB : forall p', In p' (entries s x) -> forall y, preach (hp s2) p' y <-> preach (hp s) p' y).
      { intros p' I'. apply preach_frame. intros y Y. apply FOO. destruct X0 as (o' & Qo & X0). injection Qo as <-. exists o. split; [auto|].
        eapply reach_trans; [exact X0|]. apply (see s x p'); auto. }
      apply (SUB p (nth_error_In _ _ Qp)) in Zp. apply (SUB q (nth_error_In _ _ Qq)) in Zq. exact (DS x RX DX i j p q NIJ Qp Qq z Zp Zq). }
    assert (SP2 : separate s2 o nn).
    { split; [exact (DS2 o (reach_refl _ _) (proj1 (rep_obj_inv _ _ _ _ RO2)))|]. intros x X Y.
      apply (AP (Some o) IO1); [apply PN2; exists nn; auto|apply PO2; exists o; auto]. }
    assert (MI2 : minv s2 o nn (unescape_keys E u old)).
    { apply (minv_start s2 o nn u old u' new); auto.
      - intros x X. apply V2, V1. apply (mi_live _ _ _ _ _ MI _ IO). apply PO, X.
      - intros x X. assert (Y : preach (hp s1) (Some nn) x) by (apply PN2; exists nn; auto). rewrite (FN2 x Y). destruct Y as (n' & Qn & Y). injection Qn as <-.
        destruct (SN nn eq_refl x Y) as [A B]. auto. }
    assert (INS : In (Some nn) (entries s m)) by (unfold entries in *; rewrite <- M1; exact IN).
    assert (FNN : forall x, preach (hp s) (Some nn) x -> hp s1 x = hp s x) by (exact (unchanged s s1 l m v pre (Some nn) MI F1 INS)).
    assert (NL2 : no_leftovers s2 nn).
    { intros p x Ip Xp DX. assert (Y : preach (hp s1) (Some nn) x).
      { apply PN2. exists nn. split; [auto|]. apply (see s2 nn p); auto. apply (rep_obj_inv _ _ _ _ RN2). }
      assert (Y0 : preach (hp s) (Some nn) x) by (apply (preach_frame _ _ _ FNN); exact Y).
      rewrite (FN2 x Y), (FNN x Y0) in *. exact (NL (Some nn) x INS Y0 DX). }
    assert (CN : coming s2 nn O new) by (destruct (rep_obj_inv _ _ _ _ RN2) as (_ & _ & FN); exact FN).
    destruct (IH s2 o nn path MI2 CN CLN DO DN DS2 NL2) as (n3 & s3 & path3 & r & Q3 & W3 & D3 & L3 & DM3 & V3 & F3).
    destruct (listed_back E (hp s3) (c_unesc (hp s3 o)) (c_kvs (hp s3 o)) _ L3) as (kvs & FK3 & UK3).
    exists (List.length pre + S (n + n3))%nat, s3, path3, (set_val idx (VObject (c_unesc (hp s3 o)) kvs) (union v pre)).
    pose proof (good_5 s l W (or_introl D)) as L5.
    assert (RL2 : ~ reach (hp s2) o l) by (intros X; apply OL, PO2; exists o; auto).
    assert (HL : hp s3 l = hp s2 l) by (apply F3; [apply V2, V1, Ll|auto]).
    assert (PL3 : pairs s3 l = pairs s2 l) by (unfold HeapCalls.pairs; rewrite HL; reflexivity).
    split.
    { rewrite R by lia. rewrite ST. apply (merge_mono E G None n3 _ _ _ _ _ _ _ Q3). lia. }
    split; [exact W3|]. split; [rewrite HL; exact D2|]. split.
    { rewrite PL3, P2. destruct (mi_rep _ _ _ _ _ MI1) as [LEN1 RR1].
      assert (LS : forall x, List.length (set_val idx x (union v pre)) = List.length (union v pre)).
      { intros x. pose proof (map_fst_set_val idx x (union v pre)) as M. apply (f_equal (@List.length _)) in M. rewrite !map_length in M. exact M. }
      split; [rewrite LS; exact LEN1|]. intros j a b Qa Qb. rewrite nth_set_val in Qb. destruct (Nat.eqb_spec j idx) as [->|NJ].
      - rewrite NPS in Qa. injection Qa as <-. destruct (nth_error (union v pre) idx) as [[k1 y]|] eqn:NU; [|discriminate]. injection Qb as <-.
        destruct (RR1 idx _ _ NPS NU) as [A _]. cbn [fst] in A. cbn [fst snd]. split; [exact A|]. constructor; [exact D3|exact FK3].
      - destruct (RR1 j a b Qa Qb) as [A B]. split; [exact A|]. apply (rep_frame (hp s1)); [exact B|]. intros x X. destruct a as [ka pa]. cbn [snd] in X.
        pose proof (nth_pair_entry E _ _ _ _ _ Qa) as NA. pose proof (nth_error_In _ _ NA) as IA.
        rewrite F3; [apply F2; intros ->; exact (mi_self _ _ _ _ _ MI1 _ IA X)|apply V2, (mi_live _ _ _ _ _ MI1 _ IA x X)|].
        destruct (Nat.lt_ge_cases x 5) as [LT|GE]; [auto|]. right. intros Y.
        pose proof (mi_sep _ _ _ _ _ MI1 j idx _ _ NJ NA (nth_pair_entry E _ _ _ _ _ NPS) x X (proj1 (PO2 x) (ex_intro _ o (conj eq_refl Y)))). lia. }
    split; [eapply dm_nested; eauto|].
    split; [intros x X; apply V3, V2, V1, X|]. intros x X NX.
    assert (Xl : x <> l) by (intros ->; destruct NX as [NX|NX]; [lia|apply NX; constructor]).
    rewrite F3; [|apply V2, V1, X|destruct NX as [NX|NX]; [auto|right; intros Y; apply NX; apply (see s l (Some o)); auto]].
    rewrite F2 by exact Xl. apply F1; auto.
    intros X5 k1 kw J. exfalso. destruct NX as [NX|NX]; [lia|]. apply NX. apply (see s l (Some x)); auto; [|apply preach_self].
    rewrite <- (entries_pairs E). apply (in_map snd) in J. exact J.
  - assert (CLP : Forall (fun kv => clonable (snd kv)) pre) by (apply Forall_app in CL as [A B]; exact A).
    destruct (prefix_union s l m v O pre _ MI CM CLP DV DW SC) as (n & s1 & added & R & MI1 & P1 & M1 & C1 & V1 & F1).
    destruct (mi_good _ _ _ _ _ MI) as (W & Ll & D & _). destruct (mi_good _ _ _ _ _ MI1) as (W1 & Ll1 & D1 & _).
    destruct (mi_rep _ _ _ _ _ MI) as [LEN RR]. pose proof (listed_fst _ _ _ (conj LEN RR)) as LF.
    assert (FK0 : find_key E (pairs s l) k = Some idx) by (rewrite (find_key_fst E _ _ k LF); exact FK).
    pose proof FK0 as FK1. apply (find_key_some E) in FK1 as (k0' & q & NP & SM).
    destruct (RR idx _ _ NP NV) as [KQ RO]. cbn [fst snd] in KQ, RO. subst k0'. destruct q as [o|]; [|inversion RO; subst; contradiction].
    pose proof (nth_pair_entry E _ _ _ _ _ NP) as NE0. pose proof (nth_error_In _ _ NE0) as IO.
    assert (FKS : find_key E (pairs s1 l) k = Some idx) by (rewrite P1; apply find_key_app; exact FK0).
    assert (NPS : nth_error (pairs s1 l) idx = Some (k0, Some o)) by (rewrite P1; rewrite nth_error_app1; [exact NP|apply nth_error_Some; congruence]).
    assert (Do : c_dt (hp s o) = TObject \/ c_dt (hp s o) = TArray) by (inversion RO; subst; try contradiction; auto).
    assert (HO : hp s1 o = hp s o).
    { apply F1; [apply (mi_live _ _ _ _ _ MI _ IO o (preach_self _ o))|intros ->; exact (mi_self _ _ _ _ _ MI _ IO (preach_self _ l))|]. intros X5 k1 kw J1 J2.
      apply In_nth_error in J1 as (j & J1). destruct (Nat.eq_dec j idx) as [->|NJ].
      - pose proof (eq_trans (eq_sym NP) J1) as JJ. injection JJ as <-. rewrite (same_cong E EO _ _ (fst kw) SM), (HeapMap.same_sym E EO).
        exact (distinct_before pre post (k, x0) kw DW J2).
      - exfalso. pose proof (nth_pair_entry E _ _ _ _ _ J1) as J1'. pose proof (mi_sep _ _ _ _ _ MI j idx _ _ NJ J1' NE0 o (preach_self _ o) (preach_self _ o)). lia. }
    destruct (coming_head _ _ _ _ _ _ C1) as (pn & NM & RN). destruct pn as [nn|]; [|inversion RN; subst; contradiction].
    destruct (deep_one s1 l m _ _ k nn k0 o idx MI1 NM FKS NPS) as (s2 & ST & W2 & P2 & E2 & D2 & V2 & F2); [rewrite HO; exact Do|].
    assert (IN : In (Some nn) (entries s1 m)). { apply nth_error_In in NM. apply (in_map snd) in NM. exact NM. }
    assert (INS : In (Some nn) (entries s m)) by (unfold entries in *; rewrite <- M1; exact IN).
    pose proof (unchanged s s1 l m v pre (Some nn) MI F1 INS nn (preach_self _ nn)) as HN.
    assert (NNL : nn <> l). { intros ->. apply (mi_src _ _ _ _ _ MI1 _ IN). apply preach_self. }
    assert (KN : c_kvs (hp s2 nn) = []).
    { rewrite F2, HN by exact NNL. apply (NL (Some nn) nn INS (preach_self _ nn)). rewrite <- HN. inversion RN; subst; try contradiction; congruence. }
    exists (List.length pre + S (S n))%nat, s2, path, (union v pre). split.
    { rewrite R by lia. rewrite ST. rewrite merge_S, KN. reflexivity. }
    split; [exact W2|]. split; [exact D2|]. split.
    { rewrite P2. destruct (mi_rep _ _ _ _ _ MI1) as [LEN1 RR1]. split; [exact LEN1|]. intros j a b Qa Qb. destruct (RR1 j a b Qa Qb) as [A B]. split; [exact A|].
      apply (rep_frame (hp s1)); [exact B|]. intros x X. apply F2. intros ->. destruct a as [ka pa]. cbn [snd] in X.
      exact (mi_self _ _ _ _ _ MI1 pa (nth_error_In _ _ (nth_pair_entry E _ _ _ _ _ Qa)) X). }
    split; [eapply dm_stop; eauto|]. split; [intros x X; apply V2, V1, X|]. intros x X NX.
    pose proof (good_5 s l W (or_introl D)) as L5.
    assert (Xl : x <> l) by (intros ->; destruct NX as [NX|NX]; [lia|apply NX; constructor]).
    rewrite F2 by exact Xl. apply F1; auto.
    intros X5 k1 kw J. exfalso. destruct NX as [NX|NX]; [lia|]. apply NX. apply (see s l (Some x)); auto; [|apply preach_self].
    rewrite <- (entries_pairs E). apply (in_map snd) in J. exact J.
Qed.

Theorem merge_nested s l m u vs u' ws : wf s -> rep (hp s) (Some l) (VObject u vs) -> rep (hp s) (Some m) (VObject u' ws) ->
  plive s (Some l) -> cloneable_graph s m -> deep_sep s l -> no_leftovers s m -> (forall x, reach (hp s) l x -> reach (hp s) m x -> (x < 5)%nat) ->
  distinct_keys same (unescape_keys E u vs) -> distinct_keys same ws -> Forall (fun kv => clonable (snd kv)) ws ->
  nestable (unescape_keys E u vs) ws ->
  exists n0, forall fuel, (n0 <= fuel)%nat -> exists s' u1 vs1,
    MergeWith E G fuel s (Some l) (Some m) None = Ok s' /\ wf s' /\
    rep (hp s') (Some l) (VObject u1 vs1) /\ deep_merge (unescape_keys E u vs) ws (unescape_keys E u1 vs1) /\
    rep (hp s') (Some m) (VObject u' ws) /\
    (forall x, live s x -> live s' x) /\ (forall x, live s x -> ~ reach (hp s) l x -> hp s' x = hp s x).
Proof.
  intros W RL RM PL CG DS NL DIS DV DW CL NE.
  destruct (rep_obj_inv _ _ _ _ RL) as (Dl & _ & _). destruct (rep_obj_inv _ _ _ _ RM) as (Dm & _ & FM).
  assert (SP : separate s l m) by (split; [exact (DS l (reach_refl _ _) Dl)|exact DIS]).
  pose proof (minv_start s l m u vs u' ws W RL RM PL CG SP DV) as MI.
  destruct (merge_deep _ _ NE s l m [] MI FM CL DV DW DS NL) as (n & s' & path' & r & Q & W' & D' & L' & DM & V' & F').
  destruct (listed_back E (hp s') (c_unesc (hp s' l)) (c_kvs (hp s' l)) _ L') as (kvs & FK & UK).
  exists n. intros fuel Fu. exists s', (c_unesc (hp s' l)), kvs. split.
  { unfold MergeWith. rewrite Dl, Dm. change (vt_eqb TObject TObject) with true. cbn [negb orb].
    change (vt_code TArray <? vt_code TObject) with false. cbv iota. rewrite (merge_mono E G None n _ _ _ _ _ _ _ Q) by lia. reflexivity. }
  split; [exact W'|]. split; [constructor; [exact D'|exact FK]|]. split; [rewrite UK; exact DM|]. split; [|auto].
  apply (rep_frame (hp s)); [exact RM|]. intros x X. destruct X as (y & Qy & X). injection Qy as <-.
  apply F'; [apply (CG x X)|]. destruct (Nat.lt_ge_cases x 5) as [LT|GE]; [auto|]. right. intros Y. pose proof (DIS x Y X). lia.
Qed.
End Deep.
