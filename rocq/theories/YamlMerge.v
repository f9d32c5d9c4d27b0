(** Merging an object into itself. *)
From Verif Require Import Base Values Tactics HeapModel HeapSpec HeapBase HeapConf HeapGet HeapMap HeapCalls HeapObj HeapClone.

Section SelfMerge.
Variable G : nat -> nat.
Notation N := none_set.

Definition leaf_type (t : vtype) : Prop := t <> TObject /\ t <> TArray.
(** Every entry of the cell is a live value that is not a container. *)
Definition leaves (s : st) (r : nat) : Prop :=
  forall k p, In (k, p) (c_kvs (hp s r)) -> exists y, p = Some y /\ live s y /\ y <> r /\ leaf_type (c_dt (hp s y)).

Lemma set_val_last {A} (l : list (bytes * A)) k x y : set_val (List.length l) y (l ++ [(k, x)]) = l ++ [(k, y)].
Proof.
  unfold set_val. rewrite nth_error_app2 by lia. rewrite Nat.sub_diag. cbn [nth_error].
  induction l as [|a l IH]; [reflexivity|]. cbn [List.length app set_nth]. rewrite IH. reflexivity.
Qed.
Lemma clone_leaf f s y c : wf s -> live s y -> ok_cache N s c -> leaf_type (c_dt (hp s y)) ->
  exists x s1, clone G (S f) s (Some y) c = Ok (x, s1) /\ live s1 x /\ leaf_type (c_dt (hp s1 x)) /\
    (x = y \/ ~ live s x) /\ (forall z, live s z -> live s1 z /\ hp s1 z = hp s z).
Proof.
  intros W L OC [T1 T2]. rewrite clone_eq. cbv zeta.
  destruct (vt_code TTrue <=? vt_code (c_dt (hp s y))).
  { exists y, s. split; [reflexivity|]. split; [exact L|]. split; [split; auto|]. split; [left; reflexivity|]. auto. }
  pose proof (getValue_got G s c (c_dt (hp s y)) W OC) as GV. destruct (getValue G s c (c_dt (hp s y))) as [r s1].
  cbn [fst snd] in GV. pose proof (g_clean _ _ _ _ GV) as (CT & _).
  assert (D : forall z, live s z -> z <> r) by (intros z LZ ->; apply (g_new _ _ _ _ GV LZ)).
  assert (OUT : forall s2, (s2 = s1 \/ exists cc, s2 = set_cell s1 r cc /\ c_dt cc = c_dt (hp s1 r)) ->
    exists x s3, Ok (r, s2) = Ok (x, s3) /\ live s3 x /\ leaf_type (c_dt (hp s3 x)) /\
    (x = y \/ ~ live s x) /\ (forall z, live s z -> live s3 z /\ hp s3 z = hp s z)).
  { intros s2 [->|(cc & -> & Q)]; exists r.
    - exists s1. split; [reflexivity|]. split; [apply (g_live _ _ _ _ GV)|]. split; [rewrite CT; split; auto|].
      split; [right; apply (g_new _ _ _ _ GV)|]. intros z LZ. split; [apply (g_lives _ _ _ _ GV); auto|].
      apply (got_frame _ _ _ _ z GV LZ).
    - exists (set_cell s1 r cc). split; [reflexivity|]. split; [apply (g_live _ _ _ _ GV)|].
      split; [cbn [hp set_cell]; rewrite upd_same, Q, CT; split; auto|].
      split; [right; apply (g_new _ _ _ _ GV)|]. intros z LZ. split; [apply (g_lives _ _ _ _ GV); auto|].
      cbn [hp set_cell]. rewrite upd_other by (apply D; auto). apply (got_frame _ _ _ _ z GV LZ). }
  destruct (_ && _); [apply OUT; right; eexists; split; reflexivity|].
  destruct (c_dt (hp s y)); try congruence; apply OUT; try (left; reflexivity); right; eexists; split; reflexivity.
Qed.

Lemma self_add fuel : forall s r i c, wf s -> live s r -> ok_cache N s c -> leaves s r ->
  (i < List.length (c_kvs (hp s r)))%nat -> add_kvs G fuel s r r i c = OutOfFuel.
Proof.
  induction fuel as [|f IH]; intros s r i c W L OC LV I; [reflexivity|]. cbn [add_kvs].
  destruct (nth_error (c_kvs (hp s r)) i) as [[k p]|] eqn:NE.
  2:{ apply nth_error_None in NE. lia. }
  destruct (LV k p (nth_error_In _ _ NE)) as (y & -> & LY & YR & TY). cbv zeta.
  pose proof (ok_of_live s r L) as OR.
  set (s0 := set_cell s r (push_kv G (hp s r) k None)).
  assert (T0 : tr N N s s0).
  { apply tr_write; auto; [|apply dt_push]. apply okc_push; [apply cell_ok_at; auto|discriminate]. }
  destruct f as [|f]; [reflexivity|].
  assert (W0 : wf s0) by apply T0. assert (OC0 : ok_cache N s0 c) by (exact (ok_cache_tr N N _ _ _ T0 OC)).
  assert (HY : hp s0 y = hp s y) by (apply upd_other; auto).
  destruct (clone_leaf f s0 y c W0 LY OC0) as (x & s1 & H & LX & TX & NX & FR); [rewrite HY; auto|].
  rewrite H. cbn [bind].
  destruct (tr_clone N N G (S f) s0 (Some y) c x s1 W0 (proj2 (ok_ptr_some N s0 y) (ok_of_live _ _ LY)) OC0 H) as [T1 _].
  assert (W1 : wf s1) by apply T1.
  assert (R0 : live s0 r) by exact L. destruct (FR r R0) as [LR1 HR1].
  assert (XR : x <> r). { destruct NX as [->|NX]; [auto|]. intros ->. auto. }
  set (cr := hp s1 r) in *.
  assert (K1 : c_kvs cr = c_kvs (hp s r) ++ [(k, None)]).
  { rewrite HR1. unfold s0. cbn [hp set_cell]. rewrite upd_same. unfold push_kv. destruct (c_spare (hp s r)); reflexivity. }
  set (s2 := set_cell s1 r (w_obj cr (c_unesc cr) (set_val (List.length (c_kvs (hp s r))) (Some x) (c_kvs cr)) (c_spare cr))).
  assert (T2 : tr N N s1 s2).
  { pose proof (ok_of_live s1 r LR1) as OR1. apply tr_write; auto. apply okc_set_val; [apply cell_ok_at; auto|].
    apply ok_ptr_some, ok_of_live; auto. }
  assert (K2 : c_kvs (hp s2 r) = c_kvs (hp s r) ++ [(k, Some x)]).
  { unfold s2. cbn [hp set_cell]. rewrite upd_same. cbn [w_obj c_kvs]. rewrite K1. apply set_val_last. }
  apply IH.
  - apply T2.
  - exact LR1.
  - exact (ok_cache_tr N N _ _ _ (tr_trans N N _ _ _ T1 T2) OC0).
  - intros k' p' I'. rewrite K2 in I'. apply in_app_or in I' as [I'|[I'|[]]].
    + destruct (LV k' p' I') as (z & -> & LZ & ZR & TZ). exists z. split; auto.
      assert (LZ0 : live s0 z) by exact LZ. destruct (FR z LZ0) as [LZ1 HZ1].
      split; [exact LZ1|]. split; auto. unfold s2. cbn [hp set_cell]. rewrite upd_other by auto. rewrite HZ1.
      unfold s0. cbn [hp set_cell]. rewrite upd_other by auto. auto.
    + injection I' as <- <-. exists x. split; auto. split; [exact LX|]. split; auto.
      unfold s2. cbn [hp set_cell]. rewrite upd_other by auto. auto.
  - rewrite K2, app_length. cbn [List.length]. lia.
Qed.

(** [v.AddFrom(v, c)] for an object with entries, none of them a container. *)
Lemma self_AddFrom fuel s r c : wf s -> live s r -> ok_cache N s c -> c_dt (hp s r) = TObject -> leaves s r ->
  c_kvs (hp s r) <> [] -> AddFrom G fuel s r r c = OutOfFuel.
Proof.
  intros W L OC T LV NE. unfold AddFrom. rewrite T. cbv zeta.
  set (s1 := set_cell s r _).
  assert (T1 : tr N N s s1).
  { pose proof (ok_of_live s r L) as OR. apply tr_write; auto. apply okc_obj_sub; [apply cell_ok_at; auto|auto]. }
  assert (K : c_kvs (hp s1 r) = c_kvs (hp s r)) by (unfold s1; cbn [hp set_cell]; rewrite upd_same; reflexivity).
  apply self_add.
  - apply T1.
  - exact L.
  - apply (ok_cache_tr N N _ _ _ T1). destruct c; auto. apply own_okc; auto.
  - intros k p I. rewrite K in I. destruct (LV k p I) as (y & -> & LY & YR & TY). exists y. split; auto. split; [exact LY|].
    split; auto. unfold s1. cbn [hp set_cell]. rewrite upd_other by auto. auto.
  - rewrite K. destruct (c_kvs (hp s r)); [congruence|cbn; lia].
Qed.

(** The same for an array. *)
Definition arr_leaves (s : st) (r : nat) : Prop :=
  forall p, In p (c_arr (hp s r)) -> exists y, p = Some y /\ live s y /\ y <> r /\ leaf_type (c_dt (hp s y)).
Lemma self_arr fuel : forall s r i c, wf s -> live s r -> ok_cache N s c -> arr_leaves s r ->
  (i < List.length (c_arr (hp s r)))%nat -> clone_arr G fuel s r r i c = OutOfFuel.
Proof.
  induction fuel as [|f IH]; intros s r i c W L OC LV I; [reflexivity|]. rewrite clone_arr_S.
  destruct (nth_error (c_arr (hp s r)) i) as [p|] eqn:NE.
  2:{ apply nth_error_None in NE. lia. }
  destruct (LV p (nth_error_In _ _ NE)) as (y & -> & LY & YR & TY).
  destruct f as [|f]; [reflexivity|].
  destruct (clone_leaf f s y c W LY OC TY) as (x & s1 & H & LX & TX & NX & FR).
  rewrite H. cbn [bind].
  destruct (tr_clone N N G (S f) s (Some y) c x s1 W (proj2 (ok_ptr_some N s y) (ok_of_live _ _ LY)) OC H) as [T1 _].
  assert (W1 : wf s1) by apply T1. destruct (FR r L) as [LR1 HR1].
  assert (XR : x <> r). { destruct NX as [->|NX]; [auto|]. intros ->. auto. }
  set (s2 := set_cell s1 r (w_arr (hp s1 r) (c_arr (hp s1 r) ++ [Some x]))).
  assert (T2 : tr N N s1 s2).
  { pose proof (ok_of_live s1 r LR1) as OR1. apply tr_write; auto. apply okc_app; [apply cell_ok_at; auto|].
    apply ok_ptr_some, ok_of_live; auto. }
  assert (K2 : c_arr (hp s2 r) = c_arr (hp s r) ++ [Some x]).
  { unfold s2. cbn [hp set_cell]. rewrite upd_same, HR1. reflexivity. }
  apply IH.
  - apply T2.
  - exact LR1.
  - exact (ok_cache_tr N N _ _ _ (tr_trans N N _ _ _ T1 T2) OC).
  - intros p' I'. rewrite K2 in I'. apply in_app_or in I' as [I'|[I'|[]]].
    + destruct (LV p' I') as (z & -> & LZ & ZR & TZ). exists z. split; auto.
      destruct (FR z LZ) as [LZ1 HZ1].
      split; [exact LZ1|]. split; auto. unfold s2. cbn [hp set_cell]. rewrite upd_other by auto. rewrite HZ1. auto.
    + subst p'. exists x. split; auto. split; [exact LX|]. split; auto.
      unfold s2. cbn [hp set_cell]. rewrite upd_other by auto. auto.
  - rewrite K2, app_length. cbn [List.length]. lia.
Qed.
Lemma self_AddFrom_arr fuel s r c : wf s -> live s r -> c_dt (hp s r) = TArray -> arr_leaves s r ->
  c_arr (hp s r) <> [] -> AddFrom G fuel s r r c = OutOfFuel.
Proof.
  intros W L T LV NE. unfold AddFrom. rewrite T. apply self_arr; auto.
  - apply own_okc; auto.
  - destruct (c_arr (hp s r)); [congruence|cbn; lia].
Qed.
End SelfMerge.
