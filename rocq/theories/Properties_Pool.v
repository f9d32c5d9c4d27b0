(** Property C40: pooled caches have one owner. *)
From Verif Require Import Base HeapModel HeapBase PoolModel PoolThms.
Local Open Scope nat_scope.

(** Any number of goroutines, any interleaving: if a goroutine does not use a value it freed or gave away,
    no cache is in the pool twice, or both in the pool and behind a held value, or behind two held values;
    and no cell is handed out twice. *)
Theorem C40_single_owner : forall n acts m,
  forallb proper acts = true -> exec_all (mach0 n) acts = Some m ->
  NoDup (m_pool m ++ owned m) /\ NoDup (roots m).
Proof. intros n acts m P X. exact (inv_spec m (exec_all_inv acts _ m (inv_start n) P X)). Qed.
Print Assumptions C40_single_owner.

Definition NewCacheValue (t : nat) (c : option nat) : list act := [AGet t c; AMark t; AVend t; AOwn t].
Definition FreeValue (t i : nat) (keep : bool) : list act := [AFree t i keep; ATake t; AForget t; AEmpty t; APut t].
Definition seen (o : option mach) : option (list nat * list nat * list nat) :=
  match o with Some m => Some (m_pool m, owned m, roots m) | None => None end.

(** Two goroutines allocate and free in turns, a value is handed over, a cache outgrows its array. *)
Definition busy : list act :=
  [AGet 0 None; AGet 1 None; AMark 1; AMark 0; AVend 0; AVend 1; AOwn 1; AOwn 0] ++
  repeat (AChild 0 0 1) 9 ++
  [AFree 1 0 false; AGive 0 0 2 false; ATake 1; AForget 1; AFree 2 0 false; ATake 2; AEmpty 1; AForget 2; APut 1;
   AGet 0 (Some 0); AEmpty 2; APut 2; AMark 0; AGet 1 (Some 0); AVend 0; AMark 1; AOwn 0; AVend 1; AOwn 1; ANil 2] ++
  NewCacheValue 2 None ++ FreeValue 2 1 false.
Example C40_nonvacuous : forallb proper busy = true /\ seen (exec_all (mach0 3) busy) = Some ([2], [1; 0; 3], [8; 16; 34]).
Proof. split; vm_compute; reflexivity. Qed.

(** Freeing a value that has no cache (any more) changes neither the pool nor the owner of
    any value. *)
Theorem C40_no_cache : forall m t i l keep m', t_pc (th m t) = Idle -> nth_error (t_held (th m t)) i = Some l -> m_own m l = None ->
  exec_all m [AFree t i keep; ATake t; AForget t] = Some m' ->
  m_pool m' = m_pool m /\ t_pc (th m' t) = Idle /\ (forall l', m_own m' l' = m_own m l').
Proof.
  intros m t i l keep m' P N O. assert (T : t < length (m_ths m)).
  { apply th_some. right. intros Q. rewrite Q in N. destruct i; discriminate N. }
  assert (G : forall m p, t < length (m_ths m) -> th (go m t p) t = mkT (t_held (th m t)) p).
  { intros m1 p L. unfold go. rewrite th_set, Nat.eqb_refl by exact L. reflexivity. }
  cbn [exec_all exec]. rewrite P, N. unfold clear_own. rewrite O.
  set (a1 := set_th m t _). assert (L1 : t < length (m_ths a1)) by (unfold a1; cbn; rewrite put_len; exact T).
  assert (H1 : t_pc (th a1 t) = Freeing l) by (unfold a1; rewrite th_set, Nat.eqb_refl by exact T; reflexivity).
  rewrite H1. change (m_own a1 l) with (m_own m l). rewrite O. set (a2 := go a1 t _).
  assert (L2 : t < length (m_ths a2)) by (unfold a2; cbn; rewrite put_len; exact L1).
  assert (H2 : t_pc (th a2 t) = Taken l None) by (unfold a2; rewrite G by exact L1; reflexivity).
  rewrite H2. intros Q. injection Q as <-. split; [reflexivity|]. split; [rewrite G by exact L2; reflexivity|].
  intros l'. cbn. unfold upd. destruct (Nat.eqb_spec l' l) as [E|E]; [subst l'; symmetry; exact O|reflexivity].
Qed.
Print Assumptions C40_no_cache.

(** Freeing a value twice in a row puts its cache into the pool once. *)
Theorem C40_double_free : forall m t i l k, t_pc (th m t) = Idle -> nth_error (t_held (th m t)) i = Some l -> m_own m l = Some k ->
  exists m1 m2, exec_all m (FreeValue t i true) = Some m1 /\ m_pool m1 = k :: m_pool m /\
    exec_all m1 [AFree t i true; ATake t; AForget t] = Some m2 /\ m_pool m2 = k :: m_pool m.
Proof.
  intros m t i l k P N O. assert (T : t < length (m_ths m)).
  { apply th_some. right. intros Q. rewrite Q in N. destruct i; discriminate N. }
  assert (G : forall m p, t < length (m_ths m) -> th (go m t p) t = mkT (t_held (th m t)) p).
  { intros m1 p L. unfold go. rewrite th_set, Nat.eqb_refl by exact L. reflexivity. }
  set (a1 := set_th (set_len m k 1) t (mkT (t_held (th m t)) (Freeing l))).
  set (a2 := go a1 t (Taken l (Some k))). set (a3 := go (set_own a2 l None) t (Loose k)).
  set (a4 := go (set_len a3 k 0) t (Emptied k)). set (a5 := go (set_pool a4 (k :: m_pool a4)) t Idle).
  assert (L1 : t < length (m_ths a1)) by (unfold a1; cbn; rewrite put_len; exact T).
  assert (H1 : th a1 t = mkT (t_held (th m t)) (Freeing l)) by (unfold a1; rewrite th_set, Nat.eqb_refl by exact T; reflexivity).
  assert (L2 : t < length (m_ths a2)) by (unfold a2; cbn; rewrite put_len; exact L1).
  assert (H2 : th a2 t = mkT (t_held (th m t)) (Taken l (Some k))) by (unfold a2; rewrite G, H1 by exact L1; reflexivity).
  assert (L3 : t < length (m_ths a3)) by (unfold a3; cbn; rewrite put_len; exact L2).
  assert (H3 : th a3 t = mkT (t_held (th m t)) (Loose k)).
  { unfold a3. rewrite G by exact L2. change (th (set_own a2 l None) t) with (th a2 t). rewrite H2. reflexivity. }
  assert (L4 : t < length (m_ths a4)) by (unfold a4; cbn; rewrite put_len; exact L3).
  assert (H4 : th a4 t = mkT (t_held (th m t)) (Emptied k)).
  { unfold a4. rewrite G by exact L3. change (th (set_len a3 k 0) t) with (th a3 t). rewrite H3. reflexivity. }
  assert (H5 : th a5 t = mkT (t_held (th m t)) Idle).
  { unfold a5. rewrite G by exact L4. change (th (set_pool a4 (k :: m_pool a4)) t) with (th a4 t). rewrite H4. reflexivity. }
  assert (X : exec_all m (FreeValue t i true) = Some a5).
  { unfold FreeValue. cbn [exec_all exec]. rewrite P, N. unfold clear_own. rewrite O. fold a1. rewrite H1. cbn [t_pc].
    change (m_own a1 l) with (m_own m l). rewrite O. fold a2. rewrite H2. cbn [t_pc]. fold a3. rewrite H3. cbn [t_pc].
    fold a4. rewrite H4. cbn [t_pc]. fold a5. reflexivity. }
  assert (E5 : exists m2, exec_all a5 [AFree t i true; ATake t; AForget t] = Some m2).
  { cbn [exec_all exec]. rewrite H5. cbn [t_pc t_held]. rewrite N.
    assert (O5 : m_own a5 l = None) by (cbn; unfold upd; rewrite Nat.eqb_refl; reflexivity). unfold clear_own. rewrite O5.
    assert (L5 : t < length (m_ths a5)) by (unfold a5; cbn; rewrite put_len; exact L4).
    rewrite th_set, Nat.eqb_refl by exact L5. cbn [t_pc]. rewrite G by (cbn [set_th m_ths]; rewrite put_len; exact L5). cbn [t_pc].
    eexists. reflexivity. }
  destruct E5 as [m2 E5]. exists a5, m2. split; [exact X|]. split; [reflexivity|]. split; [exact E5|].
  refine (eq_trans (proj1 (C40_no_cache a5 t i l true m2 _ _ _ E5)) eq_refl).
  - rewrite H5. reflexivity.
  - rewrite H5. exact N.
  - cbn. unfold upd. rewrite Nat.eqb_refl. reflexivity.
Qed.
Print Assumptions C40_double_free.
Example C40_double_free_nonvacuous :
  seen (exec_all (mach0 1) (NewCacheValue 0 None)) = Some ([], [0], [0]) /\
  seen (exec_all (mach0 1) (NewCacheValue 0 None ++ FreeValue 0 0 true ++ [AFree 0 0 true; ATake 0; AForget 0])) = Some ([0], [], [0]).
Proof. split; vm_compute; reflexivity. Qed.

(** Without the discipline the property fails.  A second free after the cache was handed out again takes
    it away from its new owner: here goroutines 1 and 2 then hold the same cell of the same cache. *)
Definition stale : list act :=
  NewCacheValue 0 None ++ FreeValue 0 0 true ++ NewCacheValue 1 (Some 0) ++ FreeValue 0 0 false ++ NewCacheValue 2 (Some 0).
Theorem C40_stale_free_refuted : ~ (forall n acts m, exec_all (mach0 n) acts = Some m ->
  NoDup (m_pool m ++ owned m) /\ NoDup (roots m)).
Proof.
  intros H. destruct (exec_all (mach0 3) stale) as [m|] eqn:X; [|vm_compute in X; discriminate X].
  destruct (H 3 stale m X) as [A _]. assert (S : seen (exec_all (mach0 3) stale) = Some ([], [0; 0], [0; 0])) by (vm_compute; reflexivity).
  rewrite X in S. injection S as S1 S2 S3. rewrite S1, S2 in A. inversion A as [|? ? NI _]. apply NI. left. reflexivity.
Qed.
Print Assumptions C40_stale_free_refuted.

(** Two goroutines freeing one value at the same time put its cache into the pool twice. *)
Definition race : list act :=
  NewCacheValue 0 None ++ [AGive 0 0 1 true; AFree 0 0 false; AFree 1 0 false; ATake 0; ATake 1; AForget 0; AForget 1;
    AEmpty 0; AEmpty 1; APut 0; APut 1].
Theorem C40_race_refuted : ~ (forall n acts m, (forall a, In a acts -> match a with AFree _ _ keep => keep = false | _ => True end) ->
  exec_all (mach0 n) acts = Some m -> NoDup (m_pool m)).
Proof.
  intros H. destruct (exec_all (mach0 2) race) as [m|] eqn:X; [|vm_compute in X; discriminate X].
  assert (A : NoDup (m_pool m)).
  { apply (H 2 race m); [|exact X]. intros a J. unfold race in J. cbn in J. repeat (destruct J as [<-|J]; [exact I || reflexivity|]). contradiction. }
  assert (S : seen (exec_all (mach0 2) race) = Some ([0; 0], [], [])) by (vm_compute; reflexivity).
  rewrite X in S. injection S as S1 S2 S3. rewrite S1 in A. inversion A as [|? ? NI _]. apply NI. left. reflexivity.
Qed.
Print Assumptions C40_race_refuted.
