(** Pooled caches have one owner, whatever the interleaving. *)
From Coq Require Import Permutation.
From Verif Require Import Base HeapModel HeapBase PoolModel.
Local Open Scope nat_scope.

(** ** Specification *)
(** Goroutines that give a value away or free it do not use it again. *)
Definition proper (a : act) : bool :=
  match a with AFree _ _ keep | AGive _ _ _ keep => negb keep | _ => true end.
(** The caches of the values held by the goroutines. *)
Definition caches_of (m : mach) (x : thread) : list nat :=
  flat_map (fun l => match m_own m l with Some k => [k] | None => [] end) (t_held x).
Definition owned (m : mach) : list nat := flat_map (caches_of m) (m_ths m).
(** All values held by the goroutines. *)
Definition roots (m : mach) : list nat := flat_map t_held (m_ths m).

(** ** Sums over the goroutines *)
Fixpoint sumt (f : thread -> nat) (l : list thread) : nat :=
  match l with [] => 0 | x :: r => f x + sumt f r end.
Lemma sumt_put f t x l : t < length l -> sumt f (put_nth t x l) + f (nth t l idle) = sumt f l + f x.
Proof.
  revert t; induction l as [|y l IH]; intros t L; cbn [length] in L; [lia|].
  destruct t as [|t]; cbn [put_nth sumt nth]; [lia|]. specialize (IH t ltac:(lia)). lia.
Qed.
Lemma put_len {A} t (x : A) l : length (put_nth t x l) = length l.
Proof. revert t; induction l as [|y l IH]; intros [|t]; cbn [put_nth length]; auto. Qed.
Lemma nth_put {A} t u (x d : A) l : t < length l -> nth u (put_nth t x l) d = if u =? t then x else nth u l d.
Proof.
  revert t u; induction l as [|y l IH]; intros t u L; cbn [length] in L; [lia|].
  destruct t as [|t], u as [|u]; cbn [put_nth nth Nat.eqb]; auto. apply IH. lia.
Qed.
Lemma sumt_one f t l : t < length l -> f (nth t l idle) <= sumt f l.
Proof.
  revert t; induction l as [|y l IH]; intros t L; cbn [length] in L; [lia|].
  destruct t as [|t]; cbn [sumt nth]; [lia|]. specialize (IH t ltac:(lia)). lia.
Qed.
Lemma sumt_two f t u l : t < length l -> u < length l -> t <> u -> f (nth t l idle) + f (nth u l idle) <= sumt f l.
Proof.
  revert t u; induction l as [|y l IH]; intros t u L M N; cbn [length] in *; [lia|].
  destruct t as [|t], u as [|u]; cbn [sumt nth]; [congruence| | |].
  - pose proof (sumt_one f u l ltac:(lia)). lia.
  - pose proof (sumt_one f t l ltac:(lia)). lia.
  - specialize (IH t u ltac:(lia) ltac:(lia) ltac:(congruence)). lia.
Qed.
Lemma sumt_zero f l : (forall t, t < length l -> f (nth t l idle) = 0) -> sumt f l = 0.
Proof.
  induction l as [|y l IH]; intros H; cbn [sumt]; [reflexivity|].
  pose proof (H 0 ltac:(cbn [length]; lia)) as H0. cbn [nth] in H0. rewrite H0, IH; [reflexivity|]. intros t L. apply (H (S t)). cbn [length]. lia.
Qed.
Lemma sumt_ext f g l : (forall t, t < length l -> f (nth t l idle) = g (nth t l idle)) -> sumt f l = sumt g l.
Proof.
  induction l as [|y l IH]; intros H; cbn [sumt]; [reflexivity|].
  pose proof (H 0 ltac:(cbn [length]; lia)) as H0. cbn [nth] in H0. rewrite H0, IH; [reflexivity|]. intros t L. apply (H (S t)). cbn [length]. lia.
Qed.

(** ** Tokens: where a cache is *)
Definition b2n (b : bool) : nat := if b then 1 else 0.
Definition eqo (o : option nat) (k : nat) : bool := match o with Some j => j =? k | None => false end.
Definition cnt (k : nat) (l : list nat) : nat := count_occ Nat.eq_dec l k.
Fixpoint htok (own : nat -> option nat) (k : nat) (l : list nat) : nat :=
  match l with [] => 0 | x :: r => b2n (eqo (own x) k) + htok own k r end.
Definition ptok (own : nat -> option nat) (k : nat) (p : pcs) : nat :=
  match p with
  | Got j | Marked j | Vend j _ | Loose j | Emptied j => b2n (j =? k)
  | Freeing l => b2n (eqo (own l) k)
  | Taken _ c => b2n (eqo c k)
  | Idle => 0
  end.
Definition tok (own : nat -> option nat) (k : nat) (x : thread) : nat := ptok own k (t_pc x) + htok own k (t_held x).
(** How often a goroutine refers to a cell. *)
Definition pcell (l : nat) (p : pcs) : nat :=
  match p with Vend _ j | Freeing j | Taken j _ => b2n (j =? l) | _ => 0 end.
Definition hc (l : nat) (x : thread) : nat := pcell l (t_pc x) + cnt l (t_held x).
Definition at_handle (x : thread) (l : nat) : Prop := In l (t_held x) \/ t_pc x = Freeing l \/ exists c, t_pc x = Taken l c.
Definition zero_at (x : thread) (k : nat) : Prop := t_pc x = Got k \/ t_pc x = Marked k \/ t_pc x = Emptied k.

Record inv (m : mach) : Prop := {
  i_tok : forall k, cnt k (m_pool m) + sumt (tok (m_own m) k) (m_ths m) <= 1;
  i_hc : forall l, sumt (hc l) (m_ths m) <= 1;
  i_handle : forall k l t, In l (m_slots m k) -> at_handle (th m t) l -> m_own m l = Some k;
  i_vend : forall k l t j, In l (m_slots m k) -> t_pc (th m t) = Vend j l -> j = k;
  i_disj : forall k k' l, In l (m_slots m k) -> In l (m_slots m k') -> k = k';
  i_cell : forall k l, In l (m_slots m k) -> l < m_cell m;
  i_hcell : forall t l, 0 < hc l (th m t) -> l < m_cell m;
  i_own : forall l k, m_own m l = Some k -> k < m_cache m;
  i_pool : forall k, In k (m_pool m) -> k < m_cache m;
  i_pc : forall k t, 0 < ptok (m_own m) k (t_pc (th m t)) -> k < m_cache m;
  i_zero : forall k, In k (m_pool m) \/ (exists t, zero_at (th m t) k) -> m_len m k = 0;
  i_root : forall l k t, at_handle (th m t) l -> m_own m l = Some k -> m_root m k = false;
  i_vroot : forall t k l, t_pc (th m t) = Vend k l -> m_root m k = false;
  i_taken : forall t l c, t_pc (th m t) = Taken l c -> c = m_own m l;
  i_slots : forall k, m_cache m <= k -> m_slots m k = [] }.

Lemma cnt_in k l : 0 < cnt k l <-> In k l.
Proof. unfold cnt. rewrite (count_occ_In Nat.eq_dec). lia. Qed.
Lemma htok_in own k l x : In x l -> own x = Some k -> 0 < htok own k l.
Proof.
  induction l as [|y l IH]; [contradiction|]. intros [->|I] O; cbn [htok].
  - rewrite O. cbn [eqo]. rewrite Nat.eqb_refl. cbn [b2n]. lia.
  - specialize (IH I O). lia.
Qed.
Lemma htok_pos own k l : 0 < htok own k l -> exists x, In x l /\ own x = Some k.
Proof.
  induction l as [|y l IH]; cbn [htok]; [lia|]. destruct (own y) as [j|] eqn:O; cbn [eqo].
  - destruct (Nat.eqb_spec j k) as [->|N]; [intros _; exists y; split; [left|]; auto|].
    cbn [b2n]. intros P. destruct (IH P) as (x & I & Q). exists x. split; [right|]; auto.
  - cbn [b2n]. intros P. destruct (IH P) as (x & I & Q). exists x. split; [right|]; auto.
Qed.
Lemma tok_handle own k x l : at_handle x l -> (forall c, t_pc x = Taken l c -> c = own l) -> own l = Some k -> 0 < tok own k x.
Proof.
  intros A T O. unfold tok. destruct A as [I|[P|[c P]]].
  - pose proof (htok_in own k _ l I O). lia.
  - rewrite P. cbn [ptok]. rewrite O. cbn [eqo]. rewrite Nat.eqb_refl. cbn [b2n]. lia.
  - rewrite P. cbn [ptok]. rewrite (T c P), O. cbn [eqo]. rewrite Nat.eqb_refl. cbn [b2n]. lia.
Qed.
Lemma hc_pos l x : 0 < hc l x -> at_handle x l \/ exists k, t_pc x = Vend k l.
Proof.
  unfold hc. intros P. destruct (Nat.eq_dec (cnt l (t_held x)) 0) as [Z|NZ].
  - unfold at_handle. rewrite Z, Nat.add_0_r in P.
    assert (Q : forall j, 0 < b2n (j =? l) -> j = l) by (intros j; destruct (Nat.eqb_spec j l); cbn; [auto|lia]).
    destruct (t_pc x); cbn [pcell] in P; try lia; apply Q in P; subst; eauto.
  - left. left. apply cnt_in. lia.
Qed.
Lemma handle_hc l x : at_handle x l -> 0 < hc l x.
Proof.
  unfold hc. intros [I|[P|[c P]]]; [apply cnt_in in I; lia| |]; rewrite P; cbn [pcell]; rewrite Nat.eqb_refl; cbn [b2n]; lia.
Qed.
Lemma vend_hc l x k : t_pc x = Vend k l -> 0 < hc l x.
Proof. intros P. unfold hc. rewrite P. cbn [pcell]. rewrite Nat.eqb_refl. cbn [b2n]. lia. Qed.
Lemma cnt_remove n l k x : nth_error l n = Some x -> cnt k (remove_at n l) + b2n (x =? k) = cnt k l.
Proof.
  revert n; induction l as [|y l IH]; intros [|n] Q; cbn [nth_error] in Q; try discriminate; unfold cnt in *; cbn [remove_at count_occ].
  - injection Q as ->. destruct (Nat.eq_dec x k), (Nat.eqb_spec x k); cbn [b2n]; try lia; congruence.
  - specialize (IH n Q). destruct (Nat.eq_dec y k); lia.
Qed.
Lemma cnt_remove_le n l k : cnt k (remove_at n l) <= cnt k l.
Proof.
  revert n; induction l as [|y l IH]; intros [|n]; unfold cnt in *; cbn [remove_at count_occ]; try lia.
  - destruct (Nat.eq_dec y k); lia.
  - specialize (IH n). destruct (Nat.eq_dec y k); lia.
Qed.
Lemma htok_remove own n l k x : nth_error l n = Some x -> htok own k (remove_at n l) + b2n (eqo (own x) k) = htok own k l.
Proof.
  revert n; induction l as [|y l IH]; intros [|n] Q; cbn [nth_error] in Q; try discriminate; cbn [remove_at htok].
  - injection Q as ->. lia.
  - specialize (IH n Q). lia.
Qed.
Lemma in_remove {A} n (l : list A) x : In x (remove_at n l) -> In x l.
Proof.
  revert n; induction l as [|y l IH]; intros [|n]; cbn [remove_at]; auto.
  - intros I. right. exact I.
  - intros [->|I]; [left; auto|right; eapply IH; eauto].
Qed.

(** Cells a goroutine does not refer to do not matter to it. *)
Lemma htok_ext own own' k l : (forall x, In x l -> own' x = own x) -> htok own' k l = htok own k l.
Proof.
  induction l as [|y l IH]; intros H; cbn [htok]; [reflexivity|]. rewrite (H y (or_introl eq_refl)), IH; [reflexivity|].
  intros x I. apply H. right. exact I.
Qed.
Lemma tok_ext own own' k x : (forall l, 0 < hc l x -> own' l = own l) -> tok own' k x = tok own k x.
Proof.
  intros H. unfold tok. rewrite (htok_ext own own').
  - destruct x as [h p]. cbn [t_pc t_held] in *. destruct p; cbn [ptok]; try reflexivity.
    rewrite H; [reflexivity|]. unfold hc. cbn [t_pc pcell]. rewrite Nat.eqb_refl. cbn [b2n]. lia.
  - intros l I. apply H. unfold hc. apply cnt_in in I. lia.
Qed.
Lemma th_some m t : t_pc (th m t) <> Idle \/ t_held (th m t) <> [] -> t < length (m_ths m).
Proof.
  unfold th. intros H. destruct (Nat.ltb_spec t (length (m_ths m))) as [L|L]; [exact L|].
  rewrite nth_overflow in H by exact L. cbn in H. destruct H as [H|H]; contradiction H; reflexivity.
Qed.

(** ** The token counts survive a step of one goroutine *)
Lemma fresh_tok m k : inv m -> m_cache m <= k -> sumt (tok (m_own m) k) (m_ths m) = 0.
Proof.
  intros I F. apply sumt_zero. intros u L. fold (th m u). destruct (Nat.eq_dec (tok (m_own m) k (th m u)) 0) as [E|E]; [exact E|].
  exfalso. unfold tok in E. destruct (Nat.eq_dec (ptok (m_own m) k (t_pc (th m u))) 0) as [E1|E1].
  - destruct (htok_pos (m_own m) k (t_held (th m u)) ltac:(lia)) as (l & _ & Q). pose proof (i_own m I l k Q). lia.
  - pose proof (i_pc m I k u ltac:(lia)). lia.
Qed.
Lemma fresh_cell m l : inv m -> m_cell m <= l -> sumt (hc l) (m_ths m) = 0.
Proof.
  intros I F. apply sumt_zero. intros u L. fold (th m u). destruct (Nat.eq_dec (hc l (th m u)) 0) as [E|E]; [exact E|].
  pose proof (i_hcell m I u l ltac:(lia)). lia.
Qed.
Lemma tok_step m own' pool' t x : inv m -> t < length (m_ths m) ->
  (forall u l, u <> t -> 0 < hc l (th m u) -> own' l = m_own m l) ->
  (forall k, cnt k pool' + tok own' k x <= cnt k (m_pool m) + tok (m_own m) k (th m t) \/
             (sumt (tok (m_own m) k) (m_ths m) = 0 /\ cnt k pool' + tok own' k x <= 1)) ->
  forall k, cnt k pool' + sumt (tok own' k) (put_nth t x (m_ths m)) <= 1.
Proof.
  intros I T O C k.
  assert (P : forall o y, sumt (tok o k) (put_nth t y (m_ths m)) = sumt (tok o k) (put_nth t idle (m_ths m)) + tok o k y).
  { intros o y. pose proof (sumt_put (tok o k) t y (m_ths m) T) as Q1. pose proof (sumt_put (tok o k) t idle (m_ths m) T) as Q2.
    change (tok o k idle) with 0 in Q2. lia. }
  assert (P0 : sumt (tok (m_own m) k) (m_ths m) = sumt (tok (m_own m) k) (put_nth t idle (m_ths m)) + tok (m_own m) k (th m t)).
  { pose proof (sumt_put (tok (m_own m) k) t idle (m_ths m) T) as Q2. change (tok (m_own m) k idle) with 0 in Q2. unfold th. lia. }
  assert (R : sumt (tok own' k) (put_nth t idle (m_ths m)) = sumt (tok (m_own m) k) (put_nth t idle (m_ths m))).
  { apply sumt_ext. intros u L. rewrite put_len in L. rewrite nth_put by exact T.
    destruct (Nat.eqb_spec u t) as [->|N]; [reflexivity|]. apply tok_ext. intros l H. exact (O u l N H). }
  rewrite P, R. pose proof (i_tok m I k) as OLD. destruct (C k) as [C1|[F C1]]; lia.
Qed.
Lemma hc_step m t x : inv m -> t < length (m_ths m) ->
  (forall l, hc l x <= hc l (th m t) \/ (hc l x <= 1 /\ sumt (hc l) (m_ths m) = 0)) ->
  forall l, sumt (hc l) (put_nth t x (m_ths m)) <= 1.
Proof.
  intros I T C l. pose proof (sumt_put (hc l) t x (m_ths m) T) as P. pose proof (i_hc m I l) as OLD.
  pose proof (sumt_one (hc l) t (m_ths m) T). unfold th in C. destruct (C l) as [C1|[C1 Z]]; lia.
Qed.
(** No two goroutines refer to one cell. *)
Lemma hc_other m t u l : inv m -> 0 < hc l (th m t) -> 0 < hc l (th m u) -> t = u.
Proof.
  intros I A B. destruct (Nat.eq_dec t u) as [E|N]; [exact E|]. exfalso.
  assert (LT : forall v, 0 < hc l (th m v) -> v < length (m_ths m)).
  { intros v H. apply th_some. destruct (hc_pos l (th m v) H) as [[J|[P|[c P]]]|[k P]].
    - right. intros Q. rewrite Q in J. exact J.
    - left. congruence.
    - left. congruence.
    - left. congruence. }
  pose proof (sumt_two (hc l) t u (m_ths m) (LT t A) (LT u B) N). pose proof (i_hc m I l). unfold th in *. lia.
Qed.
(** No two goroutines have a token of one cache. *)
Lemma tok_other m t u k : inv m -> 0 < tok (m_own m) k (th m t) -> 0 < tok (m_own m) k (th m u) -> t = u.
Proof.
  intros I A B. destruct (Nat.eq_dec t u) as [E|N]; [exact E|]. exfalso.
  assert (LT : forall v, 0 < tok (m_own m) k (th m v) -> v < length (m_ths m)).
  { intros v H. apply th_some. unfold tok in H. destruct (Nat.eq_dec (ptok (m_own m) k (t_pc (th m v))) 0) as [E1|E1].
    - right. intros Q. rewrite Q in H. cbn [htok] in H. lia.
    - left. intros Q. rewrite Q in E1. apply E1. reflexivity. }
  pose proof (sumt_two (tok (m_own m) k) t u (m_ths m) (LT t A) (LT u B) N). pose proof (i_tok m I k). unfold th in *. lia.
Qed.
Lemma tok_one m t k : inv m -> cnt k (m_pool m) + tok (m_own m) k (th m t) <= 1.
Proof.
  intros I. destruct (Nat.ltb_spec t (length (m_ths m))) as [L|L].
  - pose proof (sumt_one (tok (m_own m) k) t (m_ths m) L). pose proof (i_tok m I k). unfold th. lia.
  - unfold th. rewrite nth_overflow by exact L. cbn. pose proof (i_tok m I k). unfold th. lia.
Qed.
Lemma th_set m t x u : t < length (m_ths m) -> th (set_th m t x) u = if u =? t then x else th m u.
Proof. intros L. unfold th, set_th. cbn [m_ths]. apply nth_put. exact L. Qed.

(** ** Invariant *)
Lemma taken_of m u l : inv m -> forall c, t_pc (th m u) = Taken l c -> c = m_own m l.
Proof. intros I c Q. exact (i_taken m I u l c Q). Qed.
Lemma zero_tok own x k : zero_at x k -> 0 < tok own k x.
Proof. intros [P|[P|P]]; unfold tok; rewrite P; cbn [ptok]; rewrite Nat.eqb_refl; cbn [b2n]; lia. Qed.

Lemma step_inv m m' t x k0 : inv m -> t < length (m_ths m) -> m_ths m' = put_nth t x (m_ths m) ->
  m_cell m <= m_cell m' -> m_cache m <= m_cache m' ->
  (forall u l, u <> t -> 0 < hc l (th m u) -> m_own m' l = m_own m l) ->
  (forall k, cnt k (m_pool m') + tok (m_own m') k x <= cnt k (m_pool m) + tok (m_own m) k (th m t) \/
             (sumt (tok (m_own m) k) (m_ths m) = 0 /\ cnt k (m_pool m') + tok (m_own m') k x <= 1)) ->
  (forall l, hc l x <= hc l (th m t) \/ (hc l x <= 1 /\ sumt (hc l) (m_ths m) = 0)) ->
  (forall k l, In l (m_slots m' k) -> In l (m_slots m k) \/ (m_cell m <= l < m_cell m' /\ k = k0)) ->
  (forall l, at_handle x l -> (at_handle (th m t) l /\ m_own m' l = m_own m l) \/ (forall k, In l (m_slots m' k) -> m_own m' l = Some k)) ->
  (forall k l j, In l (m_slots m' k) -> t_pc x = Vend j l -> j = k) ->
  (forall l, 0 < hc l x -> l < m_cell m') ->
  (forall l k, m_own m' l = Some k -> k < m_cache m') ->
  (forall k, 0 < ptok (m_own m') k (t_pc x) -> k < m_cache m') ->
  (forall k, m_len m' k <> m_len m k -> 0 < tok (m_own m) k (th m t) \/ m_cache m <= k) ->
  (forall k, In k (m_pool m') -> In k (m_pool m) \/ (m_len m' k = 0 /\ k < m_cache m')) ->
  (forall k, zero_at x k -> m_len m' k = 0) ->
  (forall k, m_root m' k = true -> m_root m k = true \/ 0 < tok (m_own m) k (th m t) \/ m_cache m <= k) ->
  (forall l k, at_handle x l -> m_own m' l = Some k -> m_root m' k = false) ->
  (forall k l, t_pc x = Vend k l -> m_root m' k = false) ->
  (forall l c, t_pc x = Taken l c -> c = m_own m' l) ->
  (forall k, m_cache m' <= k -> m_slots m' k = []) ->
  inv m'.
Proof.
  intros I T TH CE CA OO TK HC SL XH XV XC OW XP LE PO XZ RO XR XW XT NS.
  assert (G : forall u, th m' u = if u =? t then x else th m u).
  { intros u. unfold th. rewrite TH. apply nth_put. exact T. }
  constructor.
  - rewrite TH. apply tok_step; auto.
  - rewrite TH. apply hc_step; auto.
  - intros k l u S0. rewrite G. destruct (Nat.eqb_spec u t) as [->|N]; intros A.
    + destruct (XH l A) as [[A0 O]|H]; [|apply H; exact S0].
      rewrite O. destruct (SL k l S0) as [S1|[F _]]; [exact (i_handle m I k l t S1 A0)|].
      pose proof (i_hcell m I t l (handle_hc _ _ A0)). lia.
    + rewrite (OO u l N (handle_hc _ _ A)). destruct (SL k l S0) as [S1|[F _]]; [exact (i_handle m I k l u S1 A)|].
      pose proof (i_hcell m I u l (handle_hc _ _ A)). lia.
  - intros k l u j S0. rewrite G. destruct (Nat.eqb_spec u t) as [->|N]; intros V; [exact (XV k l j S0 V)|].
    destruct (SL k l S0) as [S1|[F _]]; [exact (i_vend m I k l u j S1 V)|].
    pose proof (i_hcell m I u l (vend_hc _ _ _ V)). lia.
  - intros k k' l A B. destruct (SL k l A) as [A1|[FA ->]], (SL k' l B) as [B1|[FB ->]]; [|exfalso|exfalso|reflexivity].
    + exact (i_disj m I k k' l A1 B1).
    + pose proof (i_cell m I k l A1). lia.
    + pose proof (i_cell m I k' l B1). lia.
  - intros k l A. destruct (SL k l A) as [A1|[FA _]]; [pose proof (i_cell m I k l A1); lia|lia].
  - intros u l. rewrite G. destruct (u =? t); [apply XC|]. intros H. pose proof (i_hcell m I u l H). lia.
  - exact OW.
  - intros k A. destruct (PO k A) as [A1|[_ A1]]; [pose proof (i_pool m I k A1); lia|exact A1].
  - intros k u. rewrite G. destruct (Nat.eqb_spec u t) as [->|N]; [apply XP|]. intros H.
    assert (Q : ptok (m_own m') k (t_pc (th m u)) = ptok (m_own m) k (t_pc (th m u))).
    { destruct (t_pc (th m u)) eqn:P; cbn [ptok]; try reflexivity. rewrite (OO u l N); [reflexivity|].
      apply handle_hc. right. left. exact P. }
    rewrite Q in H. pose proof (i_pc m I k u H). lia.
  - intros k [A|[u A]].
    + destruct (PO k A) as [A1|[A1 _]]; [|exact A1]. pose proof (i_zero m I k (or_introl A1)) as Z.
      destruct (Nat.eq_dec (m_len m' k) (m_len m k)) as [E|E]; [congruence|]. exfalso.
      destruct (LE k E) as [TT|F]; [|pose proof (i_pool m I k A1); lia].
      pose proof (tok_one m t k I). apply cnt_in in A1. lia.
    + rewrite G in A. destruct (Nat.eqb_spec u t) as [E0|N]; [exact (XZ k A)|].
      pose proof (i_zero m I k (or_intror (ex_intro _ u A))) as Z.
      destruct (Nat.eq_dec (m_len m' k) (m_len m k)) as [E|E]; [congruence|]. exfalso.
      destruct (LE k E) as [TT|F].
      * apply N. exact (tok_other m u t k I (zero_tok _ _ _ A) TT).
      * pose proof (fresh_tok m k I F) as Z0.
        assert (L : u < length (m_ths m)) by (apply th_some; left; destruct A as [A|[A|A]]; congruence).
        pose proof (sumt_one (tok (m_own m) k) u (m_ths m) L). pose proof (zero_tok (m_own m) _ _ A). unfold th in *. lia.
  - intros l k u. rewrite G. destruct (Nat.eqb_spec u t) as [->|N]; [apply XR|]. intros A O.
    rewrite (OO u l N (handle_hc _ _ A)) in O. destruct (m_root m' k) eqn:R; [|reflexivity]. exfalso.
    destruct (RO k R) as [R0|[TT|F]].
    + pose proof (i_root m I l k u A O). congruence.
    + apply N. exact (tok_other m u t k I (tok_handle _ _ _ _ A (taken_of m u l I) O) TT).
    + pose proof (i_own m I l k O). lia.
  - intros u k l. rewrite G. destruct (Nat.eqb_spec u t) as [->|N]; [apply XW|]. intros P.
    assert (TU : 0 < tok (m_own m) k (th m u)) by (unfold tok; rewrite P; cbn [ptok]; rewrite Nat.eqb_refl; cbn [b2n]; lia).
    destruct (m_root m' k) eqn:R; [|reflexivity]. exfalso. destruct (RO k R) as [R0|[TT|F]].
    + pose proof (i_vroot m I u k l P). congruence.
    + apply N. exact (tok_other m u t k I TU TT).
    + assert (0 < ptok (m_own m) k (t_pc (th m u))) as PP by (rewrite P; cbn [ptok]; rewrite Nat.eqb_refl; cbn [b2n]; lia).
      pose proof (i_pc m I k u PP). lia.
  - intros u l c. rewrite G. destruct (Nat.eqb_spec u t) as [->|N]; [apply XT|]. intros P.
    rewrite (OO u l N); [exact (i_taken m I u l c P)|]. apply handle_hc. right. right. eauto.
  - exact NS.
Qed.

Lemma cnt_cons j k l : cnt j (k :: l) = b2n (k =? j) + cnt j l.
Proof. unfold cnt. cbn [count_occ]. destruct (Nat.eq_dec k j), (Nat.eqb_spec k j); cbn [b2n]; try lia; congruence. Qed.
Lemma put_same {A} t (d : A) l : t < length l -> put_nth t (nth t l d) l = l.
Proof. revert t; induction l as [|y l IH]; intros [|t] L; cbn [length put_nth nth] in *; try lia; [reflexivity|]. rewrite IH; [reflexivity|lia]. Qed.
Lemma held_lt m t l : In l (t_held (th m t)) -> t < length (m_ths m).
Proof. intros J. apply th_some. right. intros Q. rewrite Q in J. exact J. Qed.
Lemma grow_own m k n l : l < m_cell m -> m_own (grow m k n) l = m_own m l.
Proof. intros L. cbn [grow m_own]. destruct (Nat.leb_spec (m_cell m) l); [lia|reflexivity]. Qed.
Lemma grow_own_lt m k n l j : inv m -> m_own (grow m k n) l = Some j -> j < m_cache m.
Proof.
  intros I. cbn [grow m_own]. destruct ((m_cell m <=? l) && (l <? m_cell m + m_len m k)); intros Q; exact (i_own m I _ j Q).
Qed.
Lemma upd_ne {A} (f : nat -> A) a x b : b <> a -> upd f a x b = f b.
Proof. intros N. unfold upd. destruct (Nat.eqb_spec b a); [contradiction|reflexivity]. Qed.

Lemma inv_get_pool m t n k : inv m -> t < length (m_ths m) -> t_pc (th m t) = Idle -> nth_error (m_pool m) n = Some k ->
  inv (go (set_pool m (remove_at n (m_pool m))) t (Got k)).
Proof.
  intros I T P N. apply (step_inv m _ t (mkT (t_held (th m t)) (Got k)) 0 I T); [reflexivity|apply le_n|apply le_n|..].
  - intros; reflexivity.
  - intros j. left. cbn [m_pool m_own go set_th set_pool]. unfold tok. rewrite P. cbn [t_pc t_held ptok].
    pose proof (cnt_remove n (m_pool m) j k N). lia.
  - intros l. left. unfold hc. rewrite P. cbn [t_pc t_held pcell]. lia.
  - intros j l S0. left. exact S0.
  - intros l [J|[J|[c J]]]; try discriminate J. left. split; [left; exact J|reflexivity].
  - intros j l i _ J. discriminate J.
  - intros l J. apply (i_hcell m I t). unfold hc in *. rewrite P. exact J.
  - exact (i_own m I).
  - intros j J. cbn in J. destruct (Nat.eqb_spec k j) as [->|]; cbn in J; [|lia]. exact (i_pool m I j (nth_error_In _ _ N)).
  - intros j J. contradiction J. reflexivity.
  - intros j J. left. exact (in_remove _ _ _ J).
  - intros j [J|[J|J]]; try discriminate J. injection J as <-. apply (i_zero m I). left. exact (nth_error_In _ _ N).
  - intros j J. left. exact J.
  - intros l j [J|[J|[c J]]]; try discriminate J. intros O. apply (i_root m I l j t); [left; exact J|exact O].
  - intros j l J. discriminate J.
  - intros l c J. discriminate J.
  - exact (i_slots m I).
Qed.
Lemma inv_get_new m t : inv m -> t < length (m_ths m) -> t_pc (th m t) = Idle ->
  inv (go (new_cache m true) t (Got (m_cache m))).
Proof.
  intros I T P. apply (step_inv m _ t (mkT (t_held (th m t)) (Got (m_cache m))) (m_cache m) I T); [reflexivity|cbn; lia|cbn; lia|..].
  - intros; reflexivity.
  - intros j. cbn [m_pool m_own go set_th new_cache]. unfold tok. rewrite P. cbn [t_pc t_held ptok].
    destruct (Nat.eqb_spec (m_cache m) j) as [<-|N]; [right|left; cbn [b2n]; lia].
    pose proof (fresh_tok m (m_cache m) I (le_n _)) as Z. split; [exact Z|]. pose proof (sumt_one (tok (m_own m) (m_cache m)) t (m_ths m) T) as Q.
    fold (th m t) in Q. unfold tok in Q at 1. destruct (Nat.eq_dec (cnt (m_cache m) (m_pool m)) 0) as [E|E]; [cbn [b2n]; lia|].
    pose proof (i_pool m I (m_cache m) (proj1 (cnt_in (m_cache m) (m_pool m)) ltac:(lia))). lia.
  - intros l. left. unfold hc. rewrite P. cbn [t_pc t_held pcell]. lia.
  - intros j l S0. cbn [go set_th new_cache m_slots] in S0. unfold upd in S0. destruct (Nat.eqb_spec j (m_cache m)) as [->|N]; [right|left; exact S0].
    apply in_seq in S0. cbn. lia.
  - intros l [J|[J|[c J]]]; try discriminate J. left. split; [left; exact J|reflexivity].
  - intros j l i _ J. discriminate J.
  - intros l J. assert (l < m_cell m); [|cbn; lia]. apply (i_hcell m I t). unfold hc in *. rewrite P. exact J.
  - intros l k O. pose proof (i_own m I l k O). cbn. lia.
  - intros j J. cbn in J. destruct (Nat.eqb_spec (m_cache m) j) as [E|N]; cbn in J; [cbn; lia|lia].
  - intros j J. right. cbn [go set_th new_cache m_len] in J. destruct (Nat.eq_dec j (m_cache m)) as [->|N]; [lia|].
    rewrite upd_ne in J by exact N. contradiction J. reflexivity.
  - intros j J. left. exact J.
  - intros j [J|[J|J]]; try discriminate J. injection J as <-. cbn. apply upd_same.
  - intros j J. cbn [go set_th new_cache m_root] in J. destruct (Nat.eq_dec j (m_cache m)) as [->|N]; [right; right; lia|].
    rewrite upd_ne in J by exact N. left. exact J.
  - intros l j [J|[J|[c J]]]; try discriminate J. intros O. cbn [go set_th new_cache m_root m_own] in *. pose proof (i_own m I l j O).
    rewrite upd_ne by lia. apply (i_root m I l j t); [left; exact J|exact O].
  - intros j l J. discriminate J.
  - intros l c J. discriminate J.
  - intros k K. cbn [go set_th new_cache m_slots m_cache] in *. rewrite upd_ne by lia. apply (i_slots m I). lia.
Qed.

Lemma self_tok own k x j : t_pc x = Got j \/ t_pc x = Marked j \/ (exists l, t_pc x = Vend j l) \/ t_pc x = Loose j \/ t_pc x = Emptied j ->
  tok own k x = b2n (j =? k) + htok own k (t_held x).
Proof. intros H. unfold tok. destruct H as [H|[H|[[l H]|[H|H]]]]; rewrite H; reflexivity. Qed.
(** A goroutine that has the token of [k] at its program counter holds no value with that cache. *)
Lemma pc_no_handle m t k l : inv m -> tok (m_own m) k (th m t) = 1 + htok (m_own m) k (t_held (th m t)) ->
  In l (t_held (th m t)) -> m_own m l <> Some k.
Proof. intros I Q J O. pose proof (htok_in (m_own m) k _ l J O). pose proof (tok_one m t k I). lia. Qed.

Lemma inv_mark m t k : inv m -> t_pc (th m t) = Got k -> inv (go (set_root m k true) t (Marked k)).
Proof.
  intros I P. assert (T : t < length (m_ths m)) by (apply th_some; left; congruence).
  assert (TK : tok (m_own m) k (th m t) = 1 + htok (m_own m) k (t_held (th m t))).
  { rewrite (self_tok _ _ _ k) by auto. rewrite Nat.eqb_refl. reflexivity. }
  apply (step_inv m _ t (mkT (t_held (th m t)) (Marked k)) 0 I T); [reflexivity|apply le_n|apply le_n|..].
  - intros; reflexivity.
  - intros j. left. unfold tok. rewrite P. cbn [go set_th set_root m_own m_pool t_pc t_held ptok]. lia.
  - intros l. left. unfold hc. rewrite P. cbn [t_pc t_held pcell]. lia.
  - intros j l S0. left. exact S0.
  - intros l [J|[J|[c J]]]; try discriminate J. left. split; [left; exact J|reflexivity].
  - intros j l i _ J. discriminate J.
  - intros l J. apply (i_hcell m I t). unfold hc in *. rewrite P. exact J.
  - exact (i_own m I).
  - intros j J. apply (i_pc m I j t). rewrite P. exact J.
  - intros j J. contradiction J. reflexivity.
  - intros j J. left. exact J.
  - intros j [J|[J|J]]; try discriminate J. injection J as <-. apply (i_zero m I). right. exists t. left. exact P.
  - intros j J. cbn [go set_th set_root m_root] in J. destruct (Nat.eq_dec j k) as [->|N]; [right; left; lia|].
    rewrite upd_ne in J by exact N. left. exact J.
  - intros l j [J|[J|[c J]]]; try discriminate J. intros O. cbn [go set_th set_root m_root m_own] in *.
    destruct (Nat.eq_dec j k) as [->|N]; [destruct (pc_no_handle m t k l I TK J O)|].
    rewrite upd_ne by exact N. apply (i_root m I l j t); [left; exact J|exact O].
  - intros j l J. discriminate J.
  - intros l c J. discriminate J.
  - exact (i_slots m I).
Qed.

Lemma vend_free m t k l : inv m -> t_pc (th m t) = Marked k -> In l (m_slots m k) -> sumt (hc l) (m_ths m) = 0.
Proof.
  intros I P S0.
  assert (TK : tok (m_own m) k (th m t) = 1 + htok (m_own m) k (t_held (th m t))).
  { rewrite (self_tok _ _ _ k) by auto. rewrite Nat.eqb_refl. reflexivity. }
  apply sumt_zero. intros u L. fold (th m u). destruct (Nat.eq_dec (hc l (th m u)) 0) as [E|E]; [exact E|exfalso].
  destruct (hc_pos l (th m u) ltac:(lia)) as [A|[j V]].
  - pose proof (i_handle m I k l u S0 A) as O.
    pose proof (tok_other m u t k I (tok_handle _ _ _ _ A (taken_of m u l I) O) ltac:(lia)) as ->.
    destruct A as [J|[J|[c J]]]; [|congruence|congruence]. exact (pc_no_handle m t k l I TK J O).
  - pose proof (i_vend m I k l u j S0 V) as ->.
    assert (TU : 0 < tok (m_own m) k (th m u)) by (unfold tok; rewrite V; cbn [ptok]; rewrite Nat.eqb_refl; cbn [b2n]; lia).
    pose proof (tok_other m u t k I TU ltac:(lia)) as ->. congruence.
Qed.
Lemma inv_vend m t k : inv m -> t_pc (th m t) = Marked k ->
  let m1 := if m_len m k <? length (m_slots m k) then m else grow m k (S (m_len m k)) in
  inv (go (set_root (set_len m1 k (S (m_len m k))) k false) t (Vend k (nth (m_len m k) (m_slots m1 k) 0))).
Proof.
  intros I P m1. assert (T : t < length (m_ths m)) by (apply th_some; left; congruence).
  assert (Z : m_len m k = 0) by (apply (i_zero m I); right; exists t; right; left; exact P).
  assert (TK : tok (m_own m) k (th m t) = 1 + htok (m_own m) k (t_held (th m t))).
  { rewrite (self_tok _ _ _ k) by auto. rewrite Nat.eqb_refl. reflexivity. }
  assert (KC : k < m_cache m) by (apply (i_pc m I k t); rewrite P; cbn; rewrite Nat.eqb_refl; cbn; lia).
  assert (M1 : m_ths m1 = m_ths m /\ m_pool m1 = m_pool m /\ m_cache m1 = m_cache m /\ m_cell m <= m_cell m1 /\ m_len m1 = m_len m /\ m_root m1 = m_root m /\
    (forall l, l < m_cell m -> m_own m1 l = m_own m l) /\ (forall l j, m_own m1 l = Some j -> j < m_cache m) /\
    (forall j l, In l (m_slots m1 j) -> In l (m_slots m j) \/ (m_cell m <= l < m_cell m1 /\ j = k)) /\
    (forall j, m_cache m <= j -> m_slots m1 j = []) /\
    exists l, nth (m_len m k) (m_slots m1 k) 0 = l /\ l < m_cell m1 /\ sumt (hc l) (m_ths m) = 0 /\ forall j, In l (m_slots m1 j) -> k = j).
  { subst m1. rewrite Z. destruct (Nat.ltb_spec 0 (length (m_slots m k))) as [L|L].
    - do 7 (split; [auto|]). split; [exact (i_own m I)|]. split; [auto|]. split; [exact (i_slots m I)|].
      exists (nth 0 (m_slots m k) 0). pose proof (nth_In (m_slots m k) 0 L) as IN. split; [reflexivity|].
      split; [exact (i_cell m I k _ IN)|]. split; [exact (vend_free m t k _ I P IN)|]. intros j J. exact (i_disj m I _ _ _ IN J).
    - do 6 (split; [cbn; auto; lia|]). split; [intros; apply grow_own; auto|]. split; [intros l j; apply grow_own_lt; exact I|].
      split; [|split].
      + intros j l S0. cbn [grow m_slots] in S0. unfold upd in S0. destruct (Nat.eqb_spec j k) as [EJ|N]; [right|left; exact S0].
        apply in_seq in S0. cbn. lia.
      + intros j J. cbn [grow m_slots]. rewrite upd_ne by lia. exact (i_slots m I j J).
      + exists (m_cell m). cbn [grow m_slots m_cell]. rewrite upd_same. split; [reflexivity|]. split; [lia|].
        split; [apply fresh_cell; auto|]. intros j J. unfold upd in J. destruct (Nat.eqb_spec j k) as [EJ|N]; [congruence|].
        pose proof (i_cell m I j _ J). lia. }
  destruct M1 as (MT & MP & MC & MCE & ML & MR & MO & MOL & MS & MN & l & -> & LC & LF & LD).
  assert (HL : forall x, In x (t_held (th m t)) -> x < m_cell m).
  { intros x J. apply (i_hcell m I t). apply handle_hc. left. exact J. }
  clearbody m1. apply (step_inv m _ t (mkT (t_held (th m t)) (Vend k l)) k I T).
  - cbn. unfold th. rewrite MT. reflexivity.
  - cbn. exact MCE.
  - cbn. lia.
  - intros u x N H. cbn. apply MO. exact (i_hcell m I u x H).
  - intros j. left. cbn [m_pool m_own go set_th set_root set_len]. rewrite MP. unfold tok. rewrite P. cbn [t_pc t_held ptok]. rewrite (htok_ext (m_own m) (m_own m1)); [lia|]. intros x J. apply MO. auto.
  - intros x. unfold hc. rewrite P. cbn [t_pc t_held pcell].
    destruct (Nat.eqb_spec l x) as [<-|N]; [right|left; cbn; lia]. split; [|exact LF].
    pose proof (sumt_one (hc l) t (m_ths m) T) as Q. fold (th m t) in Q. unfold hc in Q at 1. cbn [b2n]. lia.
  - intros j x S0. cbn in *. exact (MS j x S0).
  - intros x [J|[J|[c J]]]; try discriminate J. left. split; [left; exact J|]. cbn. apply MO. auto.
  - intros j x i S0 J. injection J as <- <-. cbn in S0. exact (LD j S0).
  - intros x H. cbn. unfold hc in H. cbn [t_pc t_held pcell] in H.
    destruct (Nat.eqb_spec l x) as [EX|N]; [rewrite <- EX; exact LC|]. cbn [b2n] in H. pose proof (HL x (proj1 (cnt_in _ _) H)). lia.
  - intros x j. cbn. rewrite MC. apply MOL.
  - intros j. cbn. rewrite MC. destruct (Nat.eqb_spec k j) as [->|]; cbn; [auto|lia].
  - intros j J. cbn [go set_th set_root set_len m_len] in J. rewrite ML in J. left.
    destruct (Nat.eq_dec j k) as [->|N]; [lia|]. rewrite upd_ne in J by exact N. contradiction J. reflexivity.
  - intros j J. left. cbn in J. rewrite MP in J. exact J.
  - intros j [J|[J|J]]; discriminate J.
  - intros j J. left. cbn [go set_th set_root m_root set_len] in J. rewrite MR in J. unfold upd in J. destruct (Nat.eqb_spec j k); [discriminate J|exact J].
  - intros x j [J|[J|[c J]]]; try discriminate J. cbn [go set_th set_root m_root set_len m_own]. rewrite MR.
    intros O. unfold upd. destruct (j =? k); [reflexivity|]. rewrite MO in O by auto. apply (i_root m I x j t); [left; exact J|exact O].
  - intros j x J. injection J as <- <-. cbn. apply upd_same.
  - intros x c J. discriminate J.
  - intros j J. cbn in *. apply MN. lia.
Qed.

Lemma hc_one m t l : inv m -> hc l (th m t) <= 1.
Proof.
  intros I. destruct (Nat.ltb_spec t (length (m_ths m))) as [L|L].
  - pose proof (sumt_one (hc l) t (m_ths m) L). pose proof (i_hc m I l). unfold th. lia.
  - unfold th. rewrite nth_overflow by exact L. cbn. lia.
Qed.
Lemma not_held m t l : inv m -> pcell l (t_pc (th m t)) = 1 -> ~ In l (t_held (th m t)).
Proof. intros I P J. pose proof (hc_one m t l I) as H. unfold hc in H. apply cnt_in in J. lia. Qed.

Lemma inv_own m t k l : inv m -> t_pc (th m t) = Vend k l ->
  inv (set_th (set_own m l (Some k)) t (mkT (l :: t_held (th m t)) Idle)).
Proof.
  intros I P. assert (T : t < length (m_ths m)) by (apply th_some; left; congruence).
  assert (NH : ~ In l (t_held (th m t))).
  { apply (not_held m t l I). rewrite P. cbn. rewrite Nat.eqb_refl. reflexivity. }
  assert (KC : k < m_cache m) by (apply (i_pc m I k t); rewrite P; cbn; rewrite Nat.eqb_refl; cbn; lia).
  assert (LC : l < m_cell m) by (apply (i_hcell m I t); exact (vend_hc l _ k P)).
  apply (step_inv m _ t (mkT (l :: t_held (th m t)) Idle) 0 I T); [reflexivity|apply le_n|apply le_n|..].
  - intros u x N H. cbn [set_th set_own m_own]. apply upd_ne. intros ->. apply N. exact (hc_other m u t l I H (vend_hc l _ k P)).
  - intros j. left. cbn [m_pool m_own set_th set_own]. unfold tok. rewrite P. cbn [t_pc t_held ptok htok].
    rewrite upd_same. cbn [eqo]. rewrite (htok_ext (m_own m)); [lia|]. intros x J. apply upd_ne. intros ->. contradiction.
  - intros x. left. unfold hc. rewrite P. cbn [t_pc t_held pcell]. rewrite cnt_cons. lia.
  - intros j x S0. left. exact S0.
  - intros x [[J|J]|[J|[c J]]]; try discriminate J.
    + subst x. right. intros j S0. cbn [set_th set_own m_own]. rewrite upd_same. f_equal. exact (i_vend m I j l t k S0 P).
    + left. split; [left; exact J|]. cbn [set_th set_own m_own]. apply upd_ne. intros ->. contradiction.
  - intros j x i _ J. discriminate J.
  - intros x J. cbn [set_th set_own m_cell]. unfold hc in J. cbn [t_pc t_held pcell] in J. rewrite cnt_cons in J.
    destruct (Nat.eqb_spec l x) as [EX|N]; [rewrite <- EX; exact LC|]. apply (i_hcell m I t). unfold hc. cbn [b2n] in J. lia.
  - intros x j. cbn [set_th set_own m_own m_cache]. unfold upd. destruct (x =? l); [intros Q; injection Q as <-; exact KC|]. apply (i_own m I).
  - intros j J. cbn in J. lia.
  - intros j J. contradiction J. reflexivity.
  - intros j J. left. exact J.
  - intros j [J|[J|J]]; discriminate J.
  - intros j J. left. exact J.
  - intros x j [[J|J]|[J|[c J]]]; try discriminate J; cbn [set_th set_own m_own m_root].
    + subst x. rewrite upd_same. intros Q. injection Q as <-. exact (i_vroot m I t k l P).
    + rewrite upd_ne by (intros ->; contradiction). intros O. apply (i_root m I x j t); [left; exact J|exact O].
  - intros j x J. discriminate J.
  - intros x c J. discriminate J.
  - exact (i_slots m I).
Qed.

Lemma inv_nil m t : inv m -> t < length (m_ths m) -> t_pc (th m t) = Idle ->
  inv (set_th (set_len (set_own (new_cache m false) (m_cell m) (Some (m_cache m))) (m_cache m) 1) t (mkT (m_cell m :: t_held (th m t)) Idle)).
Proof.
  intros I T P.
  assert (HL : forall x, In x (t_held (th m t)) -> x < m_cell m).
  { intros x J. apply (i_hcell m I t). apply handle_hc. left. exact J. }
  assert (HK : htok (m_own m) (m_cache m) (t_held (th m t)) = 0).
  { destruct (Nat.eq_dec (htok (m_own m) (m_cache m) (t_held (th m t))) 0) as [E|E]; [exact E|].
    destruct (htok_pos (m_own m) (m_cache m) _ ltac:(apply Nat.neq_0_lt_0; exact E)) as (x & _ & O). pose proof (i_own m I x _ O). lia. }
  apply (step_inv m _ t (mkT (m_cell m :: t_held (th m t)) Idle) (m_cache m) I T); [reflexivity|cbn; lia|cbn; lia|..].
  - intros u x N H. cbn [set_th set_len set_own new_cache m_own]. apply upd_ne. pose proof (i_hcell m I u x H). lia.
  - intros j. cbn [m_pool m_own set_th set_len set_own new_cache]. unfold tok. rewrite P. cbn [t_pc t_held ptok htok].
    rewrite upd_same. cbn [eqo]. rewrite (htok_ext (m_own m)) by (intros x J; apply upd_ne; pose proof (HL x J); lia).
    destruct (Nat.eqb_spec (m_cache m) j) as [E|N]; [right|left; cbn [b2n]; lia]. subst j.
    split; [apply fresh_tok; auto|]. destruct (Nat.eq_dec (cnt (m_cache m) (m_pool m)) 0) as [E|E]; [cbn [b2n]; lia|].
    pose proof (i_pool m I (m_cache m) (proj1 (cnt_in (m_cache m) (m_pool m)) ltac:(lia))). lia.
  - intros x. unfold hc. rewrite P. cbn [t_pc t_held pcell]. rewrite cnt_cons.
    destruct (Nat.eqb_spec (m_cell m) x) as [E|N]; [right|left; cbn [b2n]; lia]. subst x. split; [|apply fresh_cell; auto].
    destruct (Nat.eq_dec (cnt (m_cell m) (t_held (th m t))) 0) as [E|E]; [cbn [b2n]; lia|].
    pose proof (HL (m_cell m) (proj1 (cnt_in (m_cell m) (t_held (th m t))) ltac:(lia))). lia.
  - intros j l S0. cbn [set_th set_len set_own new_cache m_slots] in S0. unfold upd in S0. destruct (Nat.eqb_spec j (m_cache m)) as [E|N]; [right|left; exact S0].
    apply in_seq in S0. cbn. lia.
  - intros x [[J|J]|[J|[c J]]]; try discriminate J; cbn [set_th set_len set_own new_cache m_own m_slots].
    + subst x. right. intros j S0. rewrite upd_same. unfold upd in S0. destruct (Nat.eqb_spec j (m_cache m)) as [E|N]; [congruence|].
      pose proof (i_cell m I j _ S0). lia.
    + left. split; [left; exact J|]. apply upd_ne. pose proof (HL x J). lia.
  - intros j x i _ J. discriminate J.
  - intros x J. cbn [set_th set_len set_own new_cache m_cell]. unfold hc in J. cbn [t_pc t_held pcell] in J. rewrite cnt_cons in J.
    destruct (Nat.eqb_spec (m_cell m) x) as [E|N]; [lia|]. cbn [b2n Nat.add] in J. pose proof (HL x (proj1 (cnt_in x _) J)). lia.
  - intros x j. cbn [set_th set_len set_own new_cache m_own m_cache]. unfold upd. destruct (x =? m_cell m); [intros Q; injection Q as <-; lia|].
    intros O. pose proof (i_own m I x j O). lia.
  - intros j J. cbn in J. lia.
  - intros j J. right. cbn [set_th set_len set_own new_cache m_len] in J. destruct (Nat.eq_dec j (m_cache m)) as [E|N]; [lia|].
    rewrite !upd_ne in J by exact N. contradiction J. reflexivity.
  - intros j J. left. exact J.
  - intros j [J|[J|J]]; discriminate J.
  - intros j J. left. cbn [set_th set_len set_own new_cache m_root] in J. unfold upd in J. destruct (j =? m_cache m); [discriminate J|exact J].
  - intros x j [[J|J]|[J|[c J]]]; try discriminate J; cbn [set_th set_len set_own new_cache m_own m_root].
    + subst x. rewrite upd_same. intros Q. injection Q as <-. apply upd_same.
    + pose proof (HL x J). rewrite upd_ne by lia. intros O. unfold upd. destruct (j =? m_cache m); [reflexivity|].
      apply (i_root m I x j t); [left; exact J|exact O].
  - intros j x J. discriminate J.
  - intros x c J. discriminate J.
  - intros j J. cbn [set_th set_len set_own new_cache m_slots m_cache] in *. rewrite upd_ne by lia. apply (i_slots m I). lia.
Qed.

(** Steps that only change the length of a cache the goroutine owns through a held value. *)
Lemma inv_len m t l k n : inv m -> t_pc (th m t) = Idle -> In l (t_held (th m t)) -> m_own m l = Some k -> inv (set_len m k n).
Proof.
  intros I P J O. pose proof (held_lt m t l J) as T.
  assert (TK : 0 < tok (m_own m) k (th m t)) by (unfold tok; pose proof (htok_in (m_own m) k _ l J O); lia).
  apply (step_inv m _ t (th m t) 0 I T).
  - cbn. symmetry. apply put_same. exact T.
  - apply le_n.
  - apply le_n.
  - intros; reflexivity.
  - intros j. left. apply le_n.
  - intros x. left. apply le_n.
  - intros j x S0. left. exact S0.
  - intros x A. left. auto.
  - intros j x i S0 V. exact (i_vend m I j x t i S0 V).
  - exact (i_hcell m I t).
  - exact (i_own m I).
  - intros j. exact (i_pc m I j t).
  - intros j N. cbn [set_len m_len] in N. destruct (Nat.eq_dec j k) as [E|NE]; [left; subst j; exact TK|].
    rewrite upd_ne in N by exact NE. contradiction N. reflexivity.
  - intros j J0. left. exact J0.
  - intros j [Q|[Q|Q]]; congruence.
  - intros j J0. left. exact J0.
  - intros x j. exact (i_root m I x j t).
  - intros j x. exact (i_vroot m I t j x).
  - intros x c. exact (i_taken m I t x c).
  - exact (i_slots m I).
Qed.
Lemma inv_grow m t l k n : inv m -> t_pc (th m t) = Idle -> In l (t_held (th m t)) -> m_own m l = Some k -> inv (grow m k n).
Proof.
  intros I P J O. pose proof (held_lt m t l J) as T.
  assert (HL : forall u x, 0 < hc x (th m u) -> m_own (grow m k n) x = m_own m x).
  { intros u x H. apply grow_own. exact (i_hcell m I u x H). }
  assert (KC : k < m_cache m) by exact (i_own m I l k O).
  apply (step_inv m _ t (th m t) k I T).
  - cbn. symmetry. apply put_same. exact T.
  - cbn. lia.
  - apply le_n.
  - intros u x _ H. exact (HL u x H).
  - intros j. left. rewrite (tok_ext (m_own m) (m_own (grow m k n))); [apply le_n|]. intros x H. exact (HL t x H).
  - intros x. left. apply le_n.
  - intros j x S0. cbn [grow m_slots] in S0. unfold upd in S0. destruct (Nat.eqb_spec j k) as [EJ|N]; [right|left; exact S0].
    apply in_seq in S0. cbn. lia.
  - intros x A. left. split; [exact A|]. exact (HL t x (handle_hc _ _ A)).
  - intros j x i S0 V. cbn [grow m_slots] in S0. unfold upd in S0. destruct (Nat.eqb_spec j k) as [EJ|N].
    + congruence.
    + exact (i_vend m I j x t i S0 V).
  - intros x H. pose proof (i_hcell m I t x H). cbn. lia.
  - intros x j. apply grow_own_lt. exact I.
  - intros j. rewrite P. cbn. lia.
  - intros j N. contradiction N. reflexivity.
  - intros j J0. left. exact J0.
  - intros j [Q|[Q|Q]]; congruence.
  - intros j J0. left. exact J0.
  - intros x j A Q. rewrite (HL t x (handle_hc _ _ A)) in Q. exact (i_root m I x j t A Q).
  - intros j x. exact (i_vroot m I t j x).
  - intros x c Q. rewrite P in Q. discriminate Q.
  - intros j K. cbn [grow m_slots m_cache] in *. rewrite upd_ne by lia. exact (i_slots m I j K).
Qed.
Lemma inv_clear m t l : inv m -> t_pc (th m t) = Idle -> In l (t_held (th m t)) -> inv (clear_own m l).
Proof. intros I P J. unfold clear_own. destruct (m_own m l) as [k|] eqn:O; [exact (inv_len m t l k 1 I P J O)|exact I]. Qed.

(** The held list shrinks; the program counter may take over the value. *)
Lemma inv_remove m t i l p : inv m -> t_pc (th m t) = Idle -> nth_error (t_held (th m t)) i = Some l -> p = Idle \/ p = Freeing l ->
  inv (set_th m t (mkT (remove_at i (t_held (th m t))) p)).
Proof.
  intros I P N PP. assert (J : In l (t_held (th m t))) by exact (nth_error_In _ _ N). pose proof (held_lt m t l J) as T.
  assert (AH : forall x, at_handle (mkT (remove_at i (t_held (th m t))) p) x -> In x (t_held (th m t))).
  { intros x [A|[A|[c A]]]; cbn [t_held t_pc] in A; [exact (in_remove _ _ _ A)| |]; destruct PP; subst p; try discriminate A. injection A as <-. exact J. }
  assert (HC : forall x, hc x (mkT (remove_at i (t_held (th m t))) p) <= hc x (th m t)).
  { intros x. unfold hc. rewrite P. cbn [t_pc t_held pcell]. pose proof (cnt_remove i _ x l N). destruct PP; subst p; cbn [pcell]; lia. }
  apply (step_inv m _ t (mkT (remove_at i (t_held (th m t))) p) 0 I T); [reflexivity|apply le_n|apply le_n|..].
  - intros; reflexivity.
  - intros j. left. cbn [m_pool m_own set_th]. unfold tok. rewrite P. cbn [t_pc t_held ptok].
    pose proof (htok_remove (m_own m) i _ j l N). destruct PP; subst p; cbn [ptok]; lia.
  - intros x. left. apply HC.
  - intros j x S0. left. exact S0.
  - intros x A. left. split; [left; exact (AH x A)|reflexivity].
  - intros j x i0 _ V. destruct PP; subst p; discriminate V.
  - intros x H. apply (i_hcell m I t). pose proof (HC x). lia.
  - exact (i_own m I).
  - intros j H. cbn [m_own set_th m_cache t_pc] in *. destruct PP; subst p; cbn [ptok] in H; [lia|].
    destruct (m_own m l) as [k|] eqn:O; cbn [eqo] in H; [|cbn in H; lia].
    destruct (Nat.eqb_spec k j) as [E|NE]; [subst j; exact (i_own m I l k O)|cbn in H; lia].
  - intros j H. contradiction H. reflexivity.
  - intros j H. left. exact H.
  - intros j [Q|[Q|Q]]; destruct PP; subst p; discriminate Q.
  - intros j H. left. exact H.
  - intros x j A O. apply (i_root m I x j t); [left; exact (AH x A)|exact O].
  - intros j x Q. destruct PP; subst p; discriminate Q.
  - intros x c Q. destruct PP; subst p; discriminate Q.
  - exact (i_slots m I).
Qed.

Lemma inv_take m t l : inv m -> t_pc (th m t) = Freeing l -> inv (go m t (Taken l (m_own m l))).
Proof.
  intros I P. assert (T : t < length (m_ths m)) by (apply th_some; left; congruence).
  apply (step_inv m _ t (mkT (t_held (th m t)) (Taken l (m_own m l))) 0 I T); [reflexivity|apply le_n|apply le_n|..].
  - intros; reflexivity.
  - intros j. left. unfold tok. rewrite P. cbn [go set_th m_own m_pool t_pc t_held ptok]. lia.
  - intros x. left. unfold hc. rewrite P. cbn [t_pc t_held pcell]. lia.
  - intros j x S0. left. exact S0.
  - intros x [J|[J|[c J]]]; try discriminate J.
    + left. split; [left; exact J|reflexivity].
    + injection J as <- _. left. split; [right; left; exact P|reflexivity].
  - intros j x i _ J. discriminate J.
  - intros x H. apply (i_hcell m I t). unfold hc in *. rewrite P. exact H.
  - exact (i_own m I).
  - intros j H. apply (i_pc m I j t). rewrite P. exact H.
  - intros j J. contradiction J. reflexivity.
  - intros j J. left. exact J.
  - intros j [J|[J|J]]; discriminate J.
  - intros j J. left. exact J.
  - intros x j [J|[J|[c J]]] O; try discriminate J; apply (i_root m I x j t); auto.
    + left; exact J.
    + injection J as <- _. right. left. exact P.
  - intros j x J. discriminate J.
  - intros x c J. injection J as <- <-. reflexivity.
  - exact (i_slots m I).
Qed.

Lemma inv_forget m t l c : inv m -> t_pc (th m t) = Taken l c ->
  inv (go (set_own m l None) t (match c with Some k => Loose k | None => Idle end)).
Proof.
  intros I P. assert (T : t < length (m_ths m)) by (apply th_some; left; congruence).
  assert (NH : ~ In l (t_held (th m t))).
  { apply (not_held m t l I). rewrite P. cbn. rewrite Nat.eqb_refl. reflexivity. }
  assert (AT : at_handle (th m t) l) by (right; right; exists c; exact P).
  pose proof (i_taken m I t l c P) as CO. set (q := match c with Some k => Loose k | None => Idle end).
  assert (QH : forall x, at_handle (mkT (t_held (th m t)) q) x -> In x (t_held (th m t))).
  { intros x [A|[A|[d A]]]; [exact A| |]; cbn [t_pc] in A; unfold q in A; destruct c; discriminate A. }
  assert (PT : forall j, ptok (upd (m_own m) l None) j q = b2n (eqo c j)) by (intros j; unfold q; destruct c; reflexivity).
  apply (step_inv m _ t (mkT (t_held (th m t)) q) 0 I T); [reflexivity|apply le_n|apply le_n|..].
  - intros u x N H. cbn [go set_th set_own m_own]. apply upd_ne. intros ->. apply N. exact (hc_other m u t l I H (handle_hc _ _ AT)).
  - intros j. left. unfold tok. rewrite P. cbn [go set_th set_own m_own m_pool t_pc t_held ptok]. rewrite PT.
    rewrite (htok_ext (m_own m)); [lia|]. intros x J. apply upd_ne. intros ->. contradiction.
  - intros x. left. unfold hc. rewrite P. cbn [t_pc t_held pcell]. unfold q. destruct c; cbn [pcell]; lia.
  - intros j x S0. left. exact S0.
  - intros x A. pose proof (QH x A) as J. left. split; [left; exact J|]. cbn [go set_th set_own m_own]. apply upd_ne. intros ->. contradiction.
  - intros j x i _ V. cbn [t_pc] in V. unfold q in V. destruct c; discriminate V.
  - intros x H. apply (i_hcell m I t). unfold hc in *. cbn [t_pc t_held] in H. rewrite P. unfold q in H. destruct c; cbn [pcell] in *; lia.
  - intros x j. cbn [go set_th set_own m_own m_cache]. unfold upd. destruct (x =? l); [discriminate|]. apply (i_own m I).
  - intros j H. cbn [go set_th set_own m_own t_pc m_cache] in *. rewrite PT in H. apply (i_pc m I j t). rewrite P. exact H.
  - intros j J. contradiction J. reflexivity.
  - intros j J. left. exact J.
  - intros j [J|[J|J]]; cbn [t_pc] in J; unfold q in J; destruct c; discriminate J.
  - intros j J. left. exact J.
  - intros x j A O. pose proof (QH x A) as J. cbn [go set_th set_own m_own m_root] in *. rewrite upd_ne in O by (intros ->; contradiction).
    apply (i_root m I x j t); [left; exact J|exact O].
  - intros j x J. cbn [t_pc] in J; unfold q in J; destruct c; discriminate J.
  - intros x d J. cbn [t_pc] in J; unfold q in J; destruct c; discriminate J.
  - exact (i_slots m I).
Qed.

Lemma inv_empty m t k : inv m -> t_pc (th m t) = Loose k -> inv (go (set_len m k 0) t (Emptied k)).
Proof.
  intros I P. assert (T : t < length (m_ths m)) by (apply th_some; left; congruence).
  assert (TK : tok (m_own m) k (th m t) = 1 + htok (m_own m) k (t_held (th m t))).
  { rewrite (self_tok _ _ _ k) by auto. rewrite Nat.eqb_refl. reflexivity. }
  apply (step_inv m _ t (mkT (t_held (th m t)) (Emptied k)) 0 I T); [reflexivity|apply le_n|apply le_n|..].
  - intros; reflexivity.
  - intros j. left. unfold tok. rewrite P. cbn [go set_th set_len m_own m_pool t_pc t_held ptok]. lia.
  - intros x. left. unfold hc. rewrite P. cbn [t_pc t_held pcell]. lia.
  - intros j x S0. left. exact S0.
  - intros x [J|[J|[c J]]]; try discriminate J. left. split; [left; exact J|reflexivity].
  - intros j x i _ J. discriminate J.
  - intros x H. apply (i_hcell m I t). unfold hc in *. rewrite P. exact H.
  - exact (i_own m I).
  - intros j H. apply (i_pc m I j t). rewrite P. exact H.
  - intros j J. cbn [go set_th set_len m_len] in J. destruct (Nat.eq_dec j k) as [E|N]; [left; subst j; lia|].
    rewrite upd_ne in J by exact N. contradiction J. reflexivity.
  - intros j J. left. exact J.
  - intros j [J|[J|J]]; try discriminate J. injection J as <-. cbn. apply upd_same.
  - intros j J. left. exact J.
  - intros x j [J|[J|[c J]]] O; try discriminate J. apply (i_root m I x j t); [left; exact J|exact O].
  - intros j x J. discriminate J.
  - intros x c J. discriminate J.
  - exact (i_slots m I).
Qed.
Lemma inv_put m t k : inv m -> t_pc (th m t) = Emptied k -> inv (go (set_pool m (k :: m_pool m)) t Idle).
Proof.
  intros I P. assert (T : t < length (m_ths m)) by (apply th_some; left; congruence).
  apply (step_inv m _ t (mkT (t_held (th m t)) Idle) 0 I T); [reflexivity|apply le_n|apply le_n|..].
  - intros; reflexivity.
  - intros j. left. unfold tok. rewrite P. cbn [go set_th set_pool m_own m_pool t_pc t_held ptok]. rewrite cnt_cons. lia.
  - intros x. left. unfold hc. rewrite P. cbn [t_pc t_held pcell]. lia.
  - intros j x S0. left. exact S0.
  - intros x [J|[J|[c J]]]; try discriminate J. left. split; [left; exact J|reflexivity].
  - intros j x i _ J. discriminate J.
  - intros x H. apply (i_hcell m I t). unfold hc in *. rewrite P. exact H.
  - exact (i_own m I).
  - intros j H. cbn in H. lia.
  - intros j J. contradiction J. reflexivity.
  - intros j [J|J]; [right; subst j|left; exact J]. split; [apply (i_zero m I); right; exists t; right; right; exact P|].
    apply (i_pc m I k t). rewrite P. cbn. rewrite Nat.eqb_refl. cbn. lia.
  - intros j [J|[J|J]]; discriminate J.
  - intros j J. left. exact J.
  - intros x j [J|[J|[c J]]] O; try discriminate J. apply (i_root m I x j t); [left; exact J|exact O].
  - intros j x J. discriminate J.
  - intros x c J. discriminate J.
  - exact (i_slots m I).
Qed.
Lemma inv_gc m n : inv m -> inv (set_pool m (remove_at n (m_pool m))).
Proof.
  intros I. destruct I. constructor; auto.
  - intros k. cbn [set_pool m_pool m_own m_ths]. pose proof (cnt_remove_le n (m_pool m) k). specialize (i_tok0 k). lia.
  - intros k J. apply i_pool0. exact (in_remove _ _ _ J).
  - intros k [J|J]; apply i_zero0; [left; exact (in_remove _ _ _ J)|right; exact J].
Qed.
(** A value nobody refers to, with a cache nobody else has, is handed to an idle goroutine. *)
Lemma inv_receive m u l : inv m -> u < length (m_ths m) -> t_pc (th m u) = Idle -> l < m_cell m ->
  sumt (hc l) (m_ths m) = 0 -> (forall k, m_own m l = Some k -> cnt k (m_pool m) + sumt (tok (m_own m) k) (m_ths m) = 0 /\ m_root m k = false) ->
  (forall k, In l (m_slots m k) -> m_own m l = Some k) ->
  inv (set_th m u (mkT (l :: t_held (th m u)) Idle)).
Proof.
  intros I T P LC HZ TZ SO.
  apply (step_inv m _ u (mkT (l :: t_held (th m u)) Idle) 0 I T); [reflexivity|apply le_n|apply le_n|..].
  - intros; reflexivity.
  - intros j. cbn [m_pool m_own set_th]. unfold tok at 1 2 4. rewrite P. cbn [t_pc t_held ptok htok].
    destruct (m_own m l) as [k|] eqn:O; cbn [eqo]; [|left; cbn; lia].
    destruct (Nat.eqb_spec k j) as [E|N]; [|left; cbn [b2n]; lia]. subst j. right. destruct (TZ k eq_refl) as [Z _].
    pose proof (sumt_one (tok (m_own m) k) u (m_ths m) T) as Q. fold (th m u) in Q. unfold tok in Q at 1. rewrite P in Q. cbn [ptok b2n] in *. lia.
  - intros x. unfold hc at 1 2 3. rewrite P. cbn [t_pc t_held pcell]. rewrite cnt_cons.
    destruct (Nat.eqb_spec l x) as [E|N]; [right|left; cbn [b2n]; lia]. subst x. split; [|exact HZ].
    pose proof (sumt_one (hc l) u (m_ths m) T) as Q. fold (th m u) in Q. unfold hc in Q at 1. cbn [b2n]. lia.
  - intros j x S0. left. exact S0.
  - intros x [[J|J]|[J|[c J]]]; try discriminate J; [right; subst x; exact SO|left; split; [left; exact J|reflexivity]].
  - intros j x i _ J. discriminate J.
  - intros x H. unfold hc in H. cbn [t_pc t_held pcell] in H. rewrite cnt_cons in H. destruct (Nat.eqb_spec l x) as [E|N]; [subst x; exact LC|].
    apply (i_hcell m I u). unfold hc. cbn [b2n] in H. lia.
  - exact (i_own m I).
  - intros j H. cbn in H. lia.
  - intros j J. contradiction J. reflexivity.
  - intros j J. left. exact J.
  - intros j [J|[J|J]]; discriminate J.
  - intros j J. left. exact J.
  - intros x j [[J|J]|[J|[c J]]] O; try discriminate J; [subst x; exact (proj2 (TZ j O))|]. apply (i_root m I x j u); [left; exact J|exact O].
  - intros j x J. discriminate J.
  - intros x c J. discriminate J.
  - exact (i_slots m I).
Qed.

Lemma clear_own_th m l t : th (clear_own m l) t = th m t.
Proof. unfold clear_own. destruct (m_own m l); reflexivity. Qed.

Theorem exec_inv m a m' : inv m -> proper a = true -> exec m a = Some m' -> inv m'.
Proof.
  intros I PR. destruct a as [t ch|t|t|t|t|t i extra|t i|t i keep|t|t|t|t|t i u keep|t i|n]; cbn [exec].
  - destruct (t_pc (th m t)) eqn:P; try discriminate. destruct (Nat.ltb_spec t (length (m_ths m))) as [L|L]; [|discriminate].
    destruct ch as [n|].
    + destruct (nth_error (m_pool m) n) as [k|] eqn:N; [|discriminate]. intros Q; injection Q as <-. apply inv_get_pool; auto.
    + intros Q; injection Q as <-. apply inv_get_new; auto.
  - destruct (t_pc (th m t)) eqn:P; try discriminate. intros Q; injection Q as <-. apply inv_mark; auto.
  - destruct (t_pc (th m t)) eqn:P; try discriminate. intros Q; injection Q as <-. apply inv_vend; auto.
  - destruct (t_pc (th m t)) eqn:P; try discriminate. intros Q; injection Q as <-. apply inv_own; auto.
  - destruct (t_pc (th m t)) eqn:P; try discriminate. destruct (Nat.ltb_spec t (length (m_ths m))) as [L|L]; [|discriminate].
    intros Q; injection Q as <-. apply inv_nil; auto.
  - destruct (t_pc (th m t)) eqn:P; try discriminate. destruct (nth_error (t_held (th m t)) i) as [l|] eqn:N; [|discriminate].
    destruct (m_own m l) as [k|] eqn:O; [|discriminate]. pose proof (nth_error_In _ _ N) as J.
    assert (R : m_root m k = false) by (apply (i_root m I l k t); [left; exact J|exact O]). rewrite R.
    intros Q; injection Q as <-. destruct (m_len m k <? length (m_slots m k)).
    + exact (inv_len m t l k _ I P J O).
    + assert (I1 : inv (grow m k (S (m_len m k + extra)))) by exact (inv_grow m t l k _ I P J O).
      assert (O1 : m_own (grow m k (S (m_len m k + extra))) l = Some k).
      { rewrite grow_own; [exact O|]. apply (i_hcell m I t). apply handle_hc. left. exact J. }
      exact (inv_len (grow m k (S (m_len m k + extra))) t l k (S (m_len m k)) I1 P J O1).
  - destruct (t_pc (th m t)) eqn:P; try discriminate. destruct (nth_error (t_held (th m t)) i) as [l|] eqn:N; [|discriminate].
    intros Q; injection Q as <-. exact (inv_clear m t l I P (nth_error_In _ _ N)).
  - destruct (t_pc (th m t)) eqn:P; try discriminate. destruct (nth_error (t_held (th m t)) i) as [l|] eqn:N; [|discriminate].
    destruct keep; [discriminate PR|]. intros Q; injection Q as <-.
    pose proof (inv_clear m t l I P (nth_error_In _ _ N)) as I1.
    rewrite <- (clear_own_th m l t). rewrite <- (clear_own_th m l t) in P, N. apply (inv_remove _ t i l); auto.
  - destruct (t_pc (th m t)) eqn:P; try discriminate. intros Q; injection Q as <-. apply inv_take; auto.
  - destruct (t_pc (th m t)) eqn:P; try discriminate. intros Q; injection Q as <-. apply inv_forget; auto.
  - destruct (t_pc (th m t)) eqn:P; try discriminate. intros Q; injection Q as <-. apply inv_empty; auto.
  - destruct (t_pc (th m t)) eqn:P; try discriminate. intros Q; injection Q as <-. apply inv_put; auto.
  - destruct (t_pc (th m t)) eqn:P; try discriminate. destruct (t_pc (th m u)) eqn:PU; try discriminate.
    destruct (nth_error (t_held (th m t)) i) as [l|] eqn:N; [|discriminate]. destruct (Nat.eqb_spec t u) as [E|NE]; [discriminate|].
    destruct (Nat.ltb_spec u (length (m_ths m))) as [L|L]; [|discriminate]. cbn [negb andb]. destruct keep; [discriminate PR|].
    intros Q; injection Q as <-. pose proof (nth_error_In _ _ N) as J. pose proof (held_lt m t l J) as T.
    pose proof (inv_remove m t i l Idle I P N (or_introl eq_refl)) as I1. set (x := mkT (remove_at i (t_held (th m t))) Idle) in *.
    assert (TU : th (set_th m t x) u = th m u) by (rewrite th_set by exact T; destruct (Nat.eqb_spec u t); [congruence|reflexivity]).
    rewrite <- TU. apply inv_receive; auto.
    + cbn. rewrite put_len. exact L.
    + rewrite TU. exact PU.
    + cbn. apply (i_hcell m I t). apply handle_hc. left. exact J.
    + pose proof (sumt_put (hc l) t x (m_ths m) T) as Q. pose proof (i_hc m I l) as H. fold (th m t) in Q.
      assert (hc l (th m t) = S (hc l x)) as E; [|cbn [set_th m_ths]; lia].
      unfold hc, x. rewrite P. cbn [t_pc t_held pcell]. pose proof (cnt_remove i _ l l N) as C. rewrite Nat.eqb_refl in C. cbn [b2n] in C. lia.
    + intros k O. cbn [set_th m_own] in O. split.
      * pose proof (sumt_put (tok (m_own m) k) t x (m_ths m) T) as Q. pose proof (i_tok m I k) as H. fold (th m t) in Q.
        assert (tok (m_own m) k (th m t) = S (tok (m_own m) k x)) as E; [|cbn [set_th m_ths m_pool m_own]; lia].
        unfold tok, x. rewrite P. cbn [t_pc t_held ptok]. pose proof (htok_remove (m_own m) i _ k l N) as C. rewrite O in C. cbn [eqo] in C.
        rewrite Nat.eqb_refl in C. cbn [b2n] in C. lia.
      * apply (i_root m I l k t); [left; exact J|exact O].
    + intros k S0. cbn [set_th m_own m_slots] in *. apply (i_handle m I k l t S0). left. exact J.
  - destruct (t_pc (th m t)) eqn:P; try discriminate. destruct (nth_error (t_held (th m t)) i) as [l|] eqn:N; [|discriminate].
    intros Q; injection Q as <-. apply (inv_remove m t i l Idle); auto.
  - intros Q; injection Q as <-. apply inv_gc. exact I.
Qed.

Lemma inv_start n : inv (mach0 n).
Proof.
  assert (T : forall t, th (mach0 n) t = idle).
  { intros t. unfold th, mach0. cbn [m_ths]. revert t; induction n as [|k IH]; intros [|t]; cbn; auto. }
  assert (S0 : forall f, f idle = 0 -> sumt f (repeat idle n) = 0).
  { intros f F. induction n as [|k IH]; cbn [repeat sumt]; [reflexivity|]. rewrite F, IH; [reflexivity|].
    intros t. specialize (T (S t)). exact T. }
  assert (H0 : forall t l, ~ at_handle (th (mach0 n) t) l).
  { intros t l A. rewrite T in A. destruct A as [[]|[A|[c A]]]; discriminate A. }
  constructor.
  - intros k. cbn. rewrite S0; [lia|reflexivity].
  - intros l. cbn. rewrite S0; [lia|reflexivity].
  - intros k l t _ A. contradiction (H0 t l A).
  - intros k l t j _ A. rewrite T in A. discriminate A.
  - intros k k' l [].
  - intros k l [].
  - intros t l A. rewrite T in A. cbn in A. lia.
  - intros l k Q. discriminate Q.
  - intros k [].
  - intros k t A. rewrite T in A. cbn in A. lia.
  - reflexivity.
  - intros l k t A. contradiction (H0 t l A).
  - intros t k l A. rewrite T in A. discriminate A.
  - intros t l c A. rewrite T in A. discriminate A.
  - reflexivity.
Qed.
Theorem exec_all_inv l : forall m m', inv m -> forallb proper l = true -> exec_all m l = Some m' -> inv m'.
Proof.
  induction l as [|a l IH]; intros m m' I P Q; cbn [exec_all forallb] in *; [injection Q as <-; exact I|].
  apply andb_prop in P. destruct (exec m a) as [m1|] eqn:X; [|discriminate]. exact (IH m1 m' (exec_inv m a m1 I (proj1 P) X) (proj2 P) Q).
Qed.

(** ** From counts to the specification *)
Lemma cnt_app k a b : cnt k (a ++ b) = cnt k a + cnt k b.
Proof. unfold cnt. apply count_occ_app. Qed.
Lemma cnt_caches m k x : cnt k (caches_of m x) = htok (m_own m) k (t_held x).
Proof.
  unfold caches_of. induction (t_held x) as [|l h IH]; [reflexivity|]. cbn [flat_map htok]. rewrite cnt_app, IH.
  destruct (m_own m l) as [j|]; cbn [eqo]; [|reflexivity]. rewrite cnt_cons. cbn. lia.
Qed.
Lemma cnt_owned m k : cnt k (owned m) <= sumt (tok (m_own m) k) (m_ths m).
Proof.
  unfold owned. induction (m_ths m) as [|x l IH]; [cbn; lia|]. cbn [flat_map sumt]. rewrite cnt_app, cnt_caches. unfold tok at 1. lia.
Qed.
Lemma cnt_roots m l : cnt l (roots m) <= sumt (hc l) (m_ths m).
Proof.
  unfold roots. induction (m_ths m) as [|x r IH]; [cbn; lia|]. cbn [flat_map sumt]. rewrite cnt_app. unfold hc at 1. lia.
Qed.
Lemma inv_spec m : inv m -> NoDup (m_pool m ++ owned m) /\ NoDup (roots m).
Proof.
  intros I. split; apply (NoDup_count_occ Nat.eq_dec).
  - intros k. fold (cnt k (m_pool m ++ owned m)). rewrite cnt_app. pose proof (cnt_owned m k). pose proof (i_tok m I k). lia.
  - intros l. fold (cnt l (roots m)). pose proof (cnt_roots m l). pose proof (i_hc m I l). lia.
Qed.
