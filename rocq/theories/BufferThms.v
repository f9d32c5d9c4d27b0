(** Binary values: contents after a call, what memory a call writes, and histories of calls that copy. *)
From Verif Require Import Base HeapModel Tactics HeapBase BufferModel.

(** ** Specification: values and buffers as plain byte strings, no memory *)
Record pure := mkPure { u_val : nat -> vtype * bytes; u_bufs : list bytes }.
Definition pure0 : pure := mkPure (fun _ => (TNull, [])) [].
(** The data of a binary: an extension keeps its type code in front. *)
Definition data_of (x : vtype * bytes) : bytes :=
  match fst x with TBinary => snd x | TExBinary => tl (snd x) | _ => [] end.
Definition part (b : bytes) (i j : nat) : option bytes :=
  if (i <=? j)%nat && (j <=? length b)%nat then Some (firstn (j - i) (skipn i b)) else None.
Definition set_data (x : vtype * bytes) (d : bytes) : vtype * bytes :=
  match x with
  | (TBinary, _) | (TExBinary, []) => (TBinary, d)
  | (TExBinary, t :: _) => (TExBinary, t :: d)
  | _ => x
  end.
Definition set_type (x : vtype * bytes) (t : Z) : vtype * bytes :=
  match x with (TExBinary, b) => (TExBinary, t :: tl b) | _ => x end.
(** [None]: outside the property (an index out of range, or a call that does not copy). *)
Definition pure_step (p : pure) (o : bop) : option pure :=
  match o with
  | BNew b _ => Some (mkPure (u_val p) (u_bufs p ++ [b]))
  | BWrite k i x =>
      if (i <? length (nth k (u_bufs p) []))%nat
      then Some (mkPure (u_val p) (firstn k (u_bufs p) ++ [overwrite (nth k (u_bufs p) []) i [x]] ++ skipn (S k) (u_bufs p)))
      else None
  | BReset v t => Some (mkPure (upd (u_val p) v (t, [])) (u_bufs p))
  | BExt v t => Some (mkPure (upd (u_val p) v (set_type (u_val p v) t)) (u_bufs p))
  | BSet v a true =>
      match match a with SBuf k i j => part (nth k (u_bufs p) []) i j | SVal u i j => part (data_of (u_val p u)) i j end with
      | Some d => Some (mkPure (upd (u_val p) v (set_data (u_val p v) d)) (u_bufs p))
      | None => None
      end
  | BSet _ _ false => None
  | BFile v d _ => Some (mkPure (upd (u_val p) v (set_data (u_val p v) d)) (u_bufs p))
  end.
Fixpoint pure_run (p : pure) (os : list bop) : option pure :=
  match os with [] => Some p | o :: r => match pure_step p o with Some q => pure_run q r | None => None end end.

(** The world shows these values and these buffers. *)
Definition shows (p : prog) (t : pure) : Prop :=
  (forall v, b_dt (w_val (p_w p) v) = fst (u_val t v) /\ read (w_mem (p_w p)) (b_bin (w_val (p_w p) v)) = snd (u_val t v)) /\
  length (p_bufs p) = length (u_bufs t) /\
  forall k, read (w_mem (p_w p)) (nth k (p_bufs p) nil_slice) = nth k (u_bufs t) [].

(** ** Slices *)
(** A slice as Go keeps it: inside its array. *)
Definition good (m : mem) (s : slice) : Prop :=
  (s_len s <= s_cap s)%nat /\ (s_off s + s_cap s <= length (m_arr m (s_arr s)))%nat /\
  (s_arr s < m_next m \/ s_off s + s_cap s = 0)%nat.
Definition apart (s t : slice) : Prop := (0 < s_cap s)%nat -> (0 < s_cap t)%nat -> s_arr s <> s_arr t.

Lemma good_nil m : good m nil_slice.
Proof. repeat split; cbn; lia. Qed.
Lemma read_nil m : read m nil_slice = [].
Proof. reflexivity. Qed.
Lemma read_len m s : good m s -> length (read m s) = s_len s.
Proof. intros (A & B & _). unfold read. rewrite firstn_length, skipn_length. lia. Qed.
Lemma good_reslice m s i j s' : good m s -> reslice s i j = Ok s' -> good m s'.
Proof.
  unfold reslice, good. intros (A & B & C). destruct (Nat.leb_spec i j); [|discriminate].
  destruct (Nat.leb_spec j (s_cap s)); [|discriminate]. cbn [andb]. intros Q; injection Q as <-.
  cbn [s_arr s_off s_len s_cap]. repeat split; lia.
Qed.
Lemma skipn_skipn {A} a b (l : list A) : skipn a (skipn b l) = skipn (b + a) l.
Proof.
  revert l; induction b as [|b IH]; intros l; [reflexivity|]. destruct l as [|x l]; [rewrite !skipn_nil; reflexivity|]. apply IH.
Qed.
Lemma skipn_firstn {A} i n (l : list A) : skipn i (firstn n l) = firstn (n - i) (skipn i l).
Proof.
  revert n l; induction i as [|i IH]; intros n l; [rewrite Nat.sub_0_r; reflexivity|].
  destruct n as [|n]; [reflexivity|]. destruct l as [|x l]; [rewrite !firstn_nil; reflexivity|]. apply IH.
Qed.
Lemma read_reslice m s i j : good m s -> (i <= j)%nat -> (j <= s_len s)%nat ->
  exists s', reslice s i j = Ok s' /\ read m s' = firstn (j - i) (skipn i (read m s)).
Proof.
  intros (A & _) I J. unfold reslice. destruct (Nat.leb_spec i j); [|lia]. destruct (Nat.leb_spec j (s_cap s)); [|lia].
  cbn [andb]. eexists. split; [reflexivity|]. unfold read. cbn [s_arr s_off s_len].
  rewrite skipn_firstn, skipn_skipn, firstn_firstn. f_equal; lia.
Qed.

Lemma overwrite_len a off b : (off + length b <= length a)%nat -> length (overwrite a off b) = length a.
Proof. intros L. unfold overwrite. rewrite !app_length, firstn_length, skipn_length. lia. Qed.
Lemma overwrite_nil a off : overwrite a off [] = a.
Proof. unfold overwrite. rewrite Nat.add_0_r. apply firstn_skipn. Qed.
(** What is read from [off] after a write at [off+n]. *)
Lemma read_overwrite a off n b : (off + n <= length a)%nat ->
  firstn (n + length b) (skipn off (overwrite a (off + n) b)) = firstn n (skipn off a) ++ b.
Proof.
  intros L. unfold overwrite.
  assert (Q : skipn off (firstn (off + n) a) = firstn n (skipn off a)).
  { rewrite skipn_firstn. f_equal. lia. }
  rewrite skipn_app, Q. rewrite firstn_length.
  replace (off - Nat.min (off + n) (length a))%nat with 0%nat by lia. rewrite skipn_O.
  assert (K : length (firstn n (skipn off a)) = n) by (rewrite firstn_length, skipn_length; lia).
  rewrite app_assoc, firstn_app, app_length, K. rewrite firstn_all2 by (rewrite app_length; lia).
  rewrite Nat.sub_diag. cbn [firstn]. apply app_nil_r.
Qed.
Lemma upd_other {A} (f : nat -> A) l x k : k <> l -> upd f l x k = f k.
Proof. intros N. unfold upd. destruct (Nat.eqb_spec k l); [contradiction|reflexivity]. Qed.

(** [m'] comes from [m] by writes to the array of [s] and by new arrays; [s'] takes the place of [s]. *)
Definition evolves (m : mem) (s : slice) (m' : mem) (s' : slice) : Prop :=
  good m' s' /\ (m_next m <= m_next m')%nat /\
  (forall x, (x < m_next m)%nat -> ((0 < s_cap s)%nat -> x <> s_arr s) -> m_arr m' x = m_arr m x) /\
  (forall x, length (m_arr m x) <= length (m_arr m' x) \/ m_next m <= x)%nat /\
  ((0 < s_cap s')%nat -> ((0 < s_cap s)%nat /\ s_arr s' = s_arr s) \/ (m_next m <= s_arr s')%nat).

Lemma evolves_trans m s m1 s1 m2 s2 : evolves m s m1 s1 -> evolves m1 s1 m2 s2 -> evolves m s m2 s2.
Proof.
  intros (A1 & A2 & A3 & A5 & A4) (B1 & B2 & B3 & B5 & B4). split; [exact B1|]. split; [lia|]. split; [|split].
  - intros x L N. rewrite B3; [apply A3; auto|lia|]. intros C1 Q. destruct (A4 C1) as [[C0 Q1]|F]; [|lia].
    apply (N C0). congruence.
  - intros x. destruct (A5 x); [|auto]. destruct (B5 x); [left|right]; lia.
  - intros C2. destruct (B4 C2) as [[C1 Q]|F]; [|right; lia]. destruct (A4 C1) as [[C0 Q1]|F]; [left|right]; [split; [auto|congruence]|lia].
Qed.

Lemma append_ok G m s b s' m' : good m s -> append G m s b = (s', m') ->
  evolves m s m' s' /\ read m' s' = read m s ++ b /\ s_len s' = (s_len s + length b)%nat.
Proof.
  intros (A & B & C). unfold append. destruct (Nat.leb_spec (s_len s + length b) (s_cap s)) as [L|L].
  - intros Q; injection Q as <- <-. split; [|split].
    + unfold evolves, good; cbn [s_arr s_off s_len s_cap m_arr m_next]. rewrite upd_same, overwrite_len by lia.
      split; [repeat split; auto; lia|]. split; [lia|]. split; [|split; [|auto]].
      * intros x X N. destruct (Nat.eqb_spec x (s_arr s)) as [->|Q]; [|apply upd_other; exact Q].
        rewrite upd_same. destruct b as [|z b]; [apply overwrite_nil|]. cbn [length] in L. destruct (N ltac:(lia)); auto.
      * intros x. left. destruct (Nat.eqb_spec x (s_arr s)) as [->|Q]; [rewrite upd_same, overwrite_len by lia; lia|].
        rewrite upd_other by exact Q. lia.
    + unfold read; cbn [s_arr s_off s_len m_arr]. rewrite upd_same. apply read_overwrite. lia.
    + reflexivity.
  - unfold alloc. intros Q; injection Q as <- <-.
    assert (RL : length (read m s) = s_len s) by (apply read_len; split; [auto|split; auto]).
    split; [|split].
    + unfold evolves, good; cbn [s_arr s_off s_len s_cap m_arr m_next]. rewrite upd_same, !app_length, repeat_length.
      split; [repeat split; lia|]. split; [lia|]. split; [|split].
      * intros x X N. apply upd_other. lia.
      * intros x. destruct (Nat.eqb_spec x (m_next m)) as [->|Q]; [right; lia|]. rewrite upd_other by exact Q. left; lia.
      * intros _. right. lia.
    + unfold read at 1; cbn [s_arr s_off s_len m_arr]. rewrite upd_same. cbn [skipn]. rewrite firstn_app, Nat.sub_diag.
      cbn [firstn]. rewrite app_nil_r, firstn_all. reflexivity.
    + cbn [s_len]. rewrite app_length, RL. reflexivity.
Qed.
Lemma good_empty m s : good m s -> good m (empty_of s).
Proof. intros (A & B & C). repeat split; cbn; auto; lia. Qed.
Lemma read_empty m s : read m (empty_of s) = [].
Proof. reflexivity. Qed.
Lemma evolves_empty m s m' s' : evolves m (empty_of s) m' s' -> evolves m s m' s'.
Proof. intros (A & B & C & D & F). split; [auto|]. split; [auto|]. split; [exact C|]. split; [exact D|exact F]. Qed.

Lemma set_bin_val w v p u : w_val (set_bin w v p) u = if (u =? v)%nat then mkB (b_dt (w_val w v)) (b_ext (w_val w v)) (fst p) else w_val w u.
Proof. cbn [set_bin w_val]. unfold upd. destruct (u =? v)%nat; reflexivity. Qed.
Lemma evolves_refl m s : good m s -> evolves m s m s.
Proof. intros A. split; [exact A|]. split; [lia|]. split; [auto|]. split; [intros; left; lia|]. auto. Qed.

Lemma split_read m s : good m s -> exists A B, m_arr m (s_arr s) = A ++ read m s ++ B /\ length A = s_off s.
Proof.
  intros (A & B & _). exists (firstn (s_off s) (m_arr m (s_arr s))), (skipn (s_len s) (skipn (s_off s) (m_arr m (s_arr s)))).
  unfold read. rewrite !firstn_skipn. split; [reflexivity|]. rewrite firstn_length. lia.
Qed.
Lemma overwrite_mid A R B i b : (i + length b <= length R)%nat ->
  overwrite (A ++ R ++ B) (length A + i) b = A ++ overwrite R i b ++ B.
Proof.
  intros L. unfold overwrite. rewrite firstn_app_2, firstn_app. replace (i - length R)%nat with 0%nat by lia.
  cbn [firstn]. rewrite app_nil_r, <- !app_assoc. f_equal. f_equal. f_equal.
  rewrite skipn_app, skipn_all2 by lia. cbn [app]. replace (length A + i + length b - length A)%nat with (i + length b)%nat by lia.
  rewrite skipn_app. replace (i + length b - length R)%nat with 0%nat by lia. reflexivity.
Qed.
Lemma poke_ok m s i x : good m s -> (i < s_len s)%nat ->
  evolves m s (poke m s i x) s /\ read (poke m s i x) s = overwrite (read m s) i [x].
Proof.
  intros A L. pose proof A as (A1 & A2 & A3). split.
  - unfold evolves, good, poke; cbn [m_arr m_next]. rewrite upd_same, overwrite_len by (cbn [length]; lia).
    split; [repeat split; auto|]. split; [lia|]. split; [|split; [|auto]].
    + intros y Y N. apply upd_other. apply N. lia.
    + intros y. left. destruct (Nat.eqb_spec y (s_arr s)) as [->|Q].
      * rewrite upd_same, overwrite_len by (cbn [length]; lia). lia.
      * rewrite upd_other by exact Q. lia.
  - destruct (split_read m s A) as (P & B & Q & LP). pose proof (read_len m s A) as RL.
    unfold read at 1. unfold poke; cbn [m_arr]. rewrite upd_same, Q, <- LP, overwrite_mid by (cbn [length]; lia).
    rewrite skipn_app, skipn_all, Nat.sub_diag. cbn [app skipn].
    rewrite firstn_app. rewrite (overwrite_len (read m s)) by (cbn [length]; lia).
    rewrite RL, Nat.sub_diag. cbn [firstn]. rewrite app_nil_r. apply firstn_all2.
    rewrite (overwrite_len (read m s)) by (cbn [length]; lia). lia.
Qed.

(** ** One call *)
(** What a call on [v] may do: the value gets type [t] and bytes [d]; only its own array is written. *)
Definition call_ok (w w' : world) (v : nat) (t : vtype) (d : bytes) : Prop :=
  evolves (w_mem w) (b_bin (w_val w v)) (w_mem w') (b_bin (w_val w' v)) /\
  b_dt (w_val w' v) = t /\ read (w_mem w') (b_bin (w_val w' v)) = d /\
  (forall u, u <> v -> w_val w' u = w_val w u).

Lemma refill_ok G w v b : good (w_mem w) (b_bin (w_val w v)) ->
  call_ok w (refill G w v b) v (b_dt (w_val w v)) (read (w_mem w) b).
Proof.
  intros A. unfold refill.
  destruct (append G (w_mem w) (empty_of (b_bin (w_val w v))) (read (w_mem w) b)) as [s' m'] eqn:P.
  destruct (append_ok _ _ _ _ _ _ (good_empty _ _ A) P) as (EV & R & _).
  unfold call_ok. rewrite set_bin_val, Nat.eqb_refl. cbn [fst snd set_bin w_mem b_bin b_dt].
  split; [apply evolves_empty; exact EV|]. split; [reflexivity|]. split; [rewrite R; reflexivity|].
  intros u N. cbn [set_bin w_val]. apply upd_other. exact N.
Qed.

Lemma reset_ok w v t : call_ok w (ResetB w v t) v t [].
Proof.
  unfold call_ok, ResetB. cbn [w_mem w_val]. rewrite upd_same. cbn [b_bin b_dt].
  split; [|split; [reflexivity|split; [reflexivity|intros u N; apply upd_other; exact N]]].
  split; [apply good_nil|]. split; [lia|]. split; [auto|]. split; [intros; left; lia|]. cbn. lia.
Qed.

Lemma call_trans w w1 w2 v t1 d1 t2 d2 : call_ok w w1 v t1 d1 -> call_ok w1 w2 v t2 d2 -> call_ok w w2 v t2 d2.
Proof.
  intros (A1 & A2 & A3 & A4) (B1 & B2 & B3 & B4). split; [eapply evolves_trans; eauto|]. split; [exact B2|]. split; [exact B3|].
  intros u N. rewrite B4, A4 by exact N. reflexivity.
Qed.
Definition pure_of (w : world) (v : nat) : vtype * bytes := (b_dt (w_val w v), read (w_mem w) (b_bin (w_val w v))).
Lemma eq_binary (d : vtype) : d = TBinary \/ d = TExBinary \/ (d <> TBinary /\ d <> TExBinary).
Proof. destruct d; auto; right; right; split; discriminate. Qed.

Lemma ext_ok G w v t : good (w_mem w) (b_bin (w_val w v)) ->
  call_ok w (SetExtType G w v t) v (fst (set_type (pure_of w v) t)) (snd (set_type (pure_of w v) t)).
Proof.
  intros A. unfold SetExtType, pure_of, set_type.
  destruct (eq_binary (b_dt (w_val w v))) as [D|[D|[D1 D2]]].
  - rewrite D. cbn [fst snd]. split; [apply evolves_refl; auto|]. repeat split; auto.
  - rewrite D. cbn [fst snd]. destruct (Nat.ltb_spec 0 (s_len (b_bin (w_val w v)))) as [L|L].
    + destruct (poke_ok _ _ 0 t A L) as [EV R]. unfold call_ok. cbn [w_mem w_val].
      split; [exact EV|]. split; [exact D|]. split; [|auto]. rewrite R. unfold overwrite. cbn [firstn app length skipn Nat.add]. reflexivity.
    + destruct (append G (w_mem w) (b_bin (w_val w v)) [t]) as [s' m'] eqn:P.
      destruct (append_ok _ _ _ _ _ _ A P) as (EV & R & _).
      unfold call_ok. rewrite set_bin_val, Nat.eqb_refl. cbn [fst snd set_bin w_mem b_bin b_dt].
      split; [exact EV|]. split; [exact D|]. split.
      * rewrite R. assert (Q : read (w_mem w) (b_bin (w_val w v)) = []).
        { apply length_zero_iff_nil. rewrite (read_len _ _ A). lia. } rewrite Q. reflexivity.
      * intros u N. cbn [set_bin w_val]. apply upd_other. exact N.
  - assert (Q : (match b_dt (w_val w v) with TExBinary =>
        if (0 <? s_len (b_bin (w_val w v)))%nat then mkW (poke (w_mem w) (b_bin (w_val w v)) 0 t) (w_val w)
        else set_bin w v (append G (w_mem w) (b_bin (w_val w v)) [t]) | _ => w end) = w) by (destruct (b_dt (w_val w v)); congruence).
    rewrite Q. assert (Q2 : (match b_dt (w_val w v) with TExBinary => (TExBinary, t :: tl (read (w_mem w) (b_bin (w_val w v))))
        | _ => (b_dt (w_val w v), read (w_mem w) (b_bin (w_val w v))) end) = (b_dt (w_val w v), read (w_mem w) (b_bin (w_val w v))))
      by (destruct (b_dt (w_val w v)); congruence).
    destruct (b_dt (w_val w v)) eqn:DD; try congruence; (split; [apply evolves_refl; auto|]; repeat split; auto).
Qed.

(** [SetBinary] copying, with any source slice, even one into the value's own buffer. *)
Lemma set_binary_ok G w v b : good (w_mem w) (b_bin (w_val w v)) ->
  call_ok w (SetBinary G w v b true) v
    (fst (set_data (pure_of w v) (read (w_mem w) b))) (snd (set_data (pure_of w v) (read (w_mem w) b))).
Proof.
  intros A. unfold SetBinary, pure_of, set_data.
  destruct (eq_binary (b_dt (w_val w v))) as [D|[D|[D1 D2]]].
  - rewrite D. cbn [fst snd]. pose proof (refill_ok G w v b A) as R. rewrite D in R. exact R.
  - rewrite D. destruct (Nat.ltb_spec 0 (s_len (b_bin (w_val w v)))) as [L|L].
    + pose proof (read_len _ _ A) as RL. destruct (read (w_mem w) (b_bin (w_val w v))) as [|x r] eqn:RD; [cbn [length] in RL; lia|].
      cbn [nth fst snd].
      destruct (append G (w_mem w) (empty_of (b_bin (w_val w v))) [x]) as [s1 m1] eqn:P1.
      (* writing the first byte back changes nothing *)
      assert (SAME : m_arr m1 (s_arr (b_bin (w_val w v))) = m_arr (w_mem w) (s_arr (b_bin (w_val w v))) /\
                     m_next m1 = m_next (w_mem w) /\ forall y, m_arr m1 y = m_arr (w_mem w) y).
      { pose proof A as (A1 & A2 & A3). unfold append in P1. cbn [empty_of s_arr s_off s_len s_cap length] in P1.
        destruct (Nat.leb_spec (0 + 1) (s_cap (b_bin (w_val w v)))) as [LL|LL]; [|lia]. injection P1 as <- <-. cbn [m_arr m_next].
        rewrite upd_same, Nat.add_0_r.
        assert (O : overwrite (m_arr (w_mem w) (s_arr (b_bin (w_val w v)))) (s_off (b_bin (w_val w v))) [x]
                    = m_arr (w_mem w) (s_arr (b_bin (w_val w v)))).
        { set (s := b_bin (w_val w v)) in *. set (a := m_arr (w_mem w) (s_arr s)) in *.
          unfold read in RD. fold s in RD. fold a in RD. unfold overwrite. cbn [length].
          rewrite <- (skipn_skipn 1 (s_off s)). destruct (skipn (s_off s) a) as [|y q] eqn:SK.
          - rewrite firstn_nil in RD. discriminate RD.
          - destruct (s_len s); [lia|]. cbn [firstn] in RD. injection RD as <- _. cbn [skipn app].
            rewrite <- (firstn_skipn (s_off s) a) at 2. rewrite SK. reflexivity. }
        split; [exact O|]. split; [reflexivity|]. intros y. destruct (Nat.eqb_spec y (s_arr (b_bin (w_val w v)))) as [->|N].
        - rewrite upd_same. exact O.
        - apply upd_other. exact N. }
      destruct SAME as (_ & _ & SAME).
      destruct (append_ok _ _ _ _ _ _ (good_empty _ _ A) P1) as (EV1 & R1 & _).
      rewrite read_empty in R1. cbn [app] in R1.
      set (w1 := set_bin w v (s1, m1)).
      assert (W1 : w_mem w1 = m1 /\ b_bin (w_val w1 v) = s1 /\ b_dt (w_val w1 v) = TExBinary).
      { unfold w1. rewrite set_bin_val, Nat.eqb_refl. cbn. auto. }
      destruct W1 as (M1 & S1 & T1). cbv zeta. rewrite M1, S1.
      assert (RB : read m1 b = read (w_mem w) b) by (unfold read; rewrite SAME; reflexivity).
      rewrite RB. destruct (append G m1 s1 (read (w_mem w) b)) as [s2 m2] eqn:P2.
      destruct (append_ok _ _ _ _ _ _ (proj1 EV1) P2) as (EV2 & R2 & _).
      unfold call_ok. rewrite set_bin_val, Nat.eqb_refl. cbn [fst snd set_bin w_mem b_bin b_dt].
      split; [eapply evolves_trans; [apply evolves_empty; exact EV1|exact EV2]|]. split; [exact T1|].
      split; [rewrite R2, R1; reflexivity|].
      intros u N. cbn [set_bin w_val]. rewrite upd_other by exact N. unfold w1. cbn [set_bin w_val]. apply upd_other. exact N.
    + assert (Q : read (w_mem w) (b_bin (w_val w v)) = []).
      { apply length_zero_iff_nil. rewrite (read_len _ _ A). lia. }
      rewrite Q. cbn [fst snd]. pose proof (reset_ok w v TBinary) as R.
      eapply call_trans; [exact R|]. pose proof (refill_ok G (ResetB w v TBinary) v b (proj1 (proj1 R))) as R2.
      rewrite (proj1 (proj2 R)) in R2. exact R2.
  - destruct (b_dt (w_val w v)) eqn:DD; try congruence; (split; [apply evolves_refl; auto|]; repeat split; auto).
Qed.

(** Storing a slice nobody else has. *)
Lemma file_ok G w v d extra : good (w_mem w) (b_bin (w_val w v)) ->
  call_ok w (SetBinaryFromFile G w v d extra) v (fst (set_data (pure_of w v) d)) (snd (set_data (pure_of w v) d)).
Proof.
  intros A. unfold SetBinaryFromFile.
  destruct (alloc (w_mem w) d extra) as [b m] eqn:AL. unfold alloc in AL. injection AL as <- <-.
  set (b := mkSl (m_next (w_mem w)) 0 (length d) (length d + extra)).
  set (m := mkMem (upd (m_arr (w_mem w)) (m_next (w_mem w)) (d ++ repeat 0 extra)) (S (m_next (w_mem w)))).
  assert (GB : good m b).
  { unfold good, b, m. cbn [s_arr s_off s_len s_cap m_arr m_next]. rewrite upd_same, app_length, repeat_length. repeat split; lia. }
  assert (RB : read m b = d).
  { unfold read, b, m. cbn [s_arr s_off s_len m_arr]. rewrite upd_same. cbn [skipn]. rewrite firstn_app, Nat.sub_diag.
    cbn [firstn]. rewrite app_nil_r, firstn_all. reflexivity. }
  assert (OLD : forall y, (y < m_next (w_mem w))%nat -> m_arr m y = m_arr (w_mem w) y).
  { intros y Y. unfold m. cbn [m_arr]. apply upd_other. lia. }
  assert (LEN : forall y, (length (m_arr (w_mem w) y) <= length (m_arr m y) \/ m_next (w_mem w) <= y)%nat).
  { intros y. destruct (Nat.ltb_spec y (m_next (w_mem w))) as [Y|Y]; [left; rewrite OLD by exact Y; lia|right; exact Y]. }
  assert (EV0 : forall s, good (w_mem w) s -> evolves (w_mem w) s m s /\ read m s = read (w_mem w) s).
  { intros s (S1 & S2 & S3). split.
    - split; [|split; [unfold m; cbn [m_next]; lia|split; [auto|split; [exact LEN|auto]]]].
      repeat split; [exact S1| |unfold m; cbn [m_next]; lia]. destruct S3 as [S3|S3]; [rewrite OLD by exact S3; exact S2|lia].
    - destruct S3 as [S3|S3]; [unfold read; rewrite OLD by exact S3; reflexivity|].
      unfold read. replace (s_len s) with 0%nat by lia. reflexivity. }
  assert (FR : forall s, evolves (w_mem w) s m b).
  { intros s. split; [exact GB|]. split; [unfold m; cbn [m_next]; lia|]. split; [auto|]. split; [exact LEN|].
    intros _. right. unfold b. cbn [s_arr]. lia. }
  unfold pure_of, set_data. set (w0 := mkW m (w_val w)).
  destruct (eq_binary (b_dt (w_val w v))) as [D|[D|[D1 D2]]].
  - rewrite D. unfold SetBinary, w0. cbn [w_val]. rewrite D. cbn [fst snd w_mem].
    unfold call_ok. rewrite set_bin_val, Nat.eqb_refl. cbn [set_bin w_mem w_val fst snd b_bin b_dt].
    split; [apply FR|]. split; [exact D|]. split; [exact RB|]. intros u N. apply upd_other. exact N.
  - rewrite D. destruct (EV0 _ A) as [EV RS].
    destruct (Nat.ltb_spec 0 (s_len (b_bin (w_val w v)))) as [L|L].
    + assert (Q : SetBinary G w0 v b false = SetBinary G w0 v b true).
      { unfold SetBinary, w0. cbn [w_val]. rewrite D. destruct (Nat.ltb_spec 0 (s_len (b_bin (w_val w v)))); [reflexivity|lia]. }
      rewrite Q. pose proof (set_binary_ok G w0 v b (proj1 EV)) as (C1 & C2 & C3 & C4).
      unfold pure_of, set_data, w0 in C2, C3. cbn [w_val w_mem] in C2, C3. rewrite D, RS, RB in C2, C3.
      unfold call_ok. split; [eapply evolves_trans; [exact EV|exact C1]|]. split; [exact C2|]. split; [exact C3|]. exact C4.
    + assert (Q : read (w_mem w) (b_bin (w_val w v)) = []).
      { apply length_zero_iff_nil. rewrite (read_len _ _ A). lia. }
      rewrite Q. cbn [fst snd]. unfold SetBinary, w0. cbn [w_val]. rewrite D.
      destruct (Nat.ltb_spec 0 (s_len (b_bin (w_val w v)))); [lia|]. cbv zeta.
      unfold call_ok. rewrite set_bin_val, Nat.eqb_refl. cbn [set_bin ResetB w_mem w_val fst snd b_bin b_dt]. rewrite upd_same.
      cbn [b_dt]. split; [apply FR|]. split; [reflexivity|]. split; [exact RB|].
      intros u N. rewrite upd_other by exact N. apply upd_other. exact N.
  - destruct (b_dt (w_val w v)) eqn:DD; try congruence; (split; [apply evolves_refl; auto|]; repeat split; auto).
Qed.

(** ** Histories *)
Inductive handle := HV (v : nat) | HB (k : nat).
Definition sl (p : prog) (h : handle) : slice :=
  match h with HV v => b_bin (w_val (p_w p) v) | HB k => nth k (p_bufs p) nil_slice end.
Notation pm p := (w_mem (p_w p)).
(** No two values or buffers share an array. *)
Definition separate (p : prog) : Prop :=
  (forall h, good (pm p) (sl p h)) /\ (forall h h', h <> h' -> apart (sl p h) (sl p h')).

Lemma separate_evolves p p' h : separate p -> evolves (pm p) (sl p h) (pm p') (sl p' h) ->
  (forall h', h' <> h -> sl p' h' = sl p h') ->
  separate p' /\ forall h', h' <> h -> read (pm p') (sl p' h') = read (pm p) (sl p h').
Proof.
  intros [GD AP] (E1 & E2 & E3 & E4 & E5) SAME.
  assert (OTH : forall h', h' <> h -> good (pm p') (sl p h') /\ read (pm p') (sl p h') = read (pm p) (sl p h')).
  { intros h' N. destruct (GD h') as (A & B & C). destruct (Nat.eqb_spec (s_cap (sl p h')) 0) as [Z|NZ].
    - split; [|unfold read; replace (s_len (sl p h')) with 0%nat by lia; reflexivity].
      repeat split; [exact A| |lia]. destruct C as [C|C]; [|lia]. destruct (E4 (s_arr (sl p h'))); lia.
    - destruct C as [C|C]; [|lia].
      assert (Q : m_arr (pm p') (s_arr (sl p h')) = m_arr (pm p) (s_arr (sl p h'))).
      { apply E3; [exact C|]. intros P. exact (AP h' h N ltac:(lia) P). }
      split; [repeat split; [exact A|rewrite Q; exact B|lia]|]. unfold read. rewrite Q. reflexivity. }
  assert (AP1 : forall h', h' <> h -> apart (sl p' h) (sl p h')).
  { intros h' N P P' Q. destruct (E5 P) as [[P0 Q0]|F].
    - apply (AP h' h N P' P0). congruence.
    - destruct (GD h') as (_ & _ & C). lia. }
  assert (DEC : forall h', h' = h \/ h' <> h).
  { intros h'. destruct h as [v|k], h' as [v'|k']; try (right; discriminate).
    - destruct (Nat.eq_dec v' v); [left|right]; congruence.
    - destruct (Nat.eq_dec k' k); [left|right]; congruence. }
  split; [split|].
  - intros h'. destruct (DEC h') as [->|N]; [exact E1|]. rewrite (SAME _ N). exact (proj1 (OTH _ N)).
  - intros a b N. destruct (DEC a) as [->|NA].
    + rewrite (SAME b) by congruence. apply AP1. congruence.
    + rewrite (SAME a NA). destruct (DEC b) as [->|NB].
      * intros P P' Q. apply (AP1 a NA P' P). congruence.
      * rewrite (SAME b NB). apply AP. exact N.
  - intros h' N. rewrite (SAME _ N). exact (proj2 (OTH _ N)).
Qed.

(** A call on value [v] in a separated program. *)
Lemma call_shows p t w' v x : separate p -> shows p t -> call_ok (p_w p) w' v (fst x) (snd x) ->
  separate (mkP w' (p_bufs p)) /\ shows (mkP w' (p_bufs p)) (mkPure (upd (u_val t) v x) (u_bufs t)).
Proof.
  intros SP (V & L & B) (C1 & C2 & C3 & C4).
  destruct (separate_evolves p (mkP w' (p_bufs p)) (HV v) SP C1) as [SP' R].
  { intros [u|k] N; [|reflexivity]. cbn [sl p_w]. rewrite C4; [reflexivity|congruence]. }
  split; [exact SP'|]. split; [|split].
  - intros u. cbn [p_w u_val]. destruct (Nat.eq_dec u v) as [->|N].
    + rewrite upd_same. auto.
    + rewrite upd_other by exact N. destruct (V u) as [V1 V2]. split; [rewrite (C4 u N); exact V1|].
      rewrite <- V2. apply (R (HV u)). congruence.
  - exact L.
  - intros k. cbn [p_w p_bufs u_bufs]. rewrite <- B. apply (R (HB k)). discriminate.
Qed.

Lemma binary_good m w u : w_mem w = m -> good m (b_bin (w_val w u)) ->
  good m (Binary w u) /\ read m (Binary w u) = data_of (b_dt (w_val w u), read m (b_bin (w_val w u))).
Proof.
  intros <- A. unfold Binary, data_of. cbn [fst snd]. destruct (eq_binary (b_dt (w_val w u))) as [D|[D|[D1 D2]]].
  - rewrite D. auto.
  - rewrite D. pose proof (read_len _ _ A) as RL. destruct (Nat.ltb_spec 0 (s_len (b_bin (w_val w u)))) as [L|L].
    + destruct A as (A1 & A2 & A3). split; [repeat split; cbn [s_arr s_off s_len s_cap]; lia|].
      unfold read. cbn [s_arr s_off s_len]. set (s := b_bin (w_val w u)) in *.
      rewrite <- (skipn_skipn 1 (s_off s)). destruct (s_len s) as [|n] eqn:E; [lia|]. cbn [Nat.sub]. rewrite Nat.sub_0_r.
      destruct (skipn (s_off s) (m_arr (w_mem w) (s_arr s))); [cbn [skipn firstn tl]; apply firstn_nil|reflexivity].
    + destruct (read (w_mem w) (b_bin (w_val w u))); [split; [apply good_nil|reflexivity]|cbn [length] in RL; lia].
  - destruct (b_dt (w_val w u)); try congruence; split; (apply good_nil || reflexivity).
Qed.

Lemma part_ok m s i j d : good m s -> part (read m s) i j = Some d -> exists s', reslice s i j = Ok s' /\ read m s' = d.
Proof.
  intros A. unfold part. rewrite (read_len _ _ A). destruct (Nat.leb_spec i j) as [I|I]; [|discriminate].
  destruct (Nat.leb_spec j (s_len s)) as [J|J]; [|discriminate]. cbn [andb]. intros Q. injection Q as <-.
  apply read_reslice; auto.
Qed.

Lemma nth_replace {A} (l : list A) k x j d : (k < length l)%nat ->
  nth j (firstn k l ++ [x] ++ skipn (S k) l) d = if (j =? k)%nat then x else nth j l d.
Proof.
  intros K. assert (FL : length (firstn k l) = k) by (rewrite firstn_length; lia).
  replace (nth j l d) with (nth j (firstn k l ++ skipn k l) d) by (rewrite firstn_skipn; reflexivity).
  destruct (Nat.eqb_spec j k) as [->|N].
  - rewrite app_nth2, FL, Nat.sub_diag by lia. reflexivity.
  - destruct (Nat.ltb_spec j k) as [L|L].
    + rewrite !app_nth1 by lia. reflexivity.
    + rewrite (app_nth2 (firstn k l) ([x] ++ _)), (app_nth2 (firstn k l) (skipn k l)), !FL by lia. destruct (j - k)%nat as [|i] eqn:Q; [lia|].
      destruct (skipn k l) as [|y r] eqn:SK.
      * apply (f_equal (@length A)) in SK. rewrite skipn_length in SK. cbn [length] in SK. lia.
      * replace (skipn (S k) l) with r; [reflexivity|]. replace (S k) with (k + 1)%nat by lia.
        rewrite <- skipn_skipn, SK. reflexivity.
Qed.
Lemma length_replace {A} (l : list A) k x : (k < length l)%nat -> length (firstn k l ++ [x] ++ skipn (S k) l) = length l.
Proof. intros K. rewrite !app_length, firstn_length, skipn_length. cbn [length]. lia. Qed.
Lemma nth_lt {A} k (l : list (list A)) : (0 < length (nth k l []))%nat -> (k < length l)%nat.
Proof. intros H. destruct (Nat.ltb_spec k (length l)) as [L|L]; [exact L|]. rewrite nth_overflow in H by exact L. cbn in H. lia. Qed.

Theorem step_shows G p t o t' : separate p -> shows p t -> pure_step t o = Some t' ->
  exists p', bstep G p o = Ok p' /\ separate p' /\ shows p' t'.
Proof.
  intros SP SH. pose proof SH as (V & L & B). pose proof SP as [GD AP]. destruct o as [b extra|k i x|v ty|v ty|v a [|]|v d extra]; cbn [pure_step bstep].
  - intros Q. injection Q as <-. unfold alloc. eexists. split; [reflexivity|].
    set (s := mkSl (m_next (pm p)) 0 (length b) (length b + extra)).
    set (m := mkMem (upd (m_arr (pm p)) (m_next (pm p)) (b ++ repeat 0 extra)) (S (m_next (pm p)))).
    set (p' := mkP (mkW m (w_val (p_w p))) (p_bufs p ++ [s])).
    assert (GB : good m s).
    { unfold good, s, m. cbn [s_arr s_off s_len s_cap m_arr m_next]. rewrite upd_same, app_length, repeat_length. repeat split; lia. }
    assert (RB : read m s = b).
    { unfold read, s, m. cbn [s_arr s_off s_len m_arr]. rewrite upd_same. cbn [skipn]. rewrite firstn_app, Nat.sub_diag.
      cbn [firstn]. rewrite app_nil_r, firstn_all. reflexivity. }
    assert (NEW : sl p' (HB (length (p_bufs p))) = s).
    { cbn [sl p_bufs p']. rewrite app_nth2, Nat.sub_diag by lia. reflexivity. }
    destruct (separate_evolves p p' (HB (length (p_bufs p))) SP) as [SP' R].
    { rewrite NEW. cbn [sl]. rewrite nth_overflow by lia. split; [exact GB|]. split; [cbn; lia|]. split; [|split].
      - intros y Y _. cbn [p_w w_mem p' m m_arr]. apply upd_other. lia.
      - intros y. destruct (Nat.eqb_spec y (m_next (pm p))) as [->|N]; [right; lia|]. left.
        cbn [p_w w_mem p' m m_arr]. rewrite upd_other by exact N. lia.
      - intros _. right. cbn. lia. }
    { intros [u|j] N; [reflexivity|]. cbn [sl p_bufs p'].
      destruct (Nat.ltb_spec j (length (p_bufs p))) as [J|J]; [apply app_nth1; exact J|].
      rewrite !nth_overflow; [reflexivity|lia|]. rewrite app_length. cbn [length].
      destruct (Nat.eq_dec j (length (p_bufs p))); [congruence|lia]. }
    split; [exact SP'|]. split; [|split].
    + intros u. cbn [p_w w_val u_val]. destruct (V u) as [V1 V2]. split; [exact V1|]. rewrite <- V2. apply (R (HV u)). discriminate.
    + cbn [u_bufs]. transitivity (length (p_bufs p ++ [s])); [reflexivity|]. rewrite !app_length, L. reflexivity.
    + intros j. cbn [u_bufs]. destruct (Nat.eq_dec j (length (p_bufs p))) as [->|N].
      * transitivity (read m s); [exact (f_equal (read m) NEW)|]. rewrite L, app_nth2, Nat.sub_diag by lia. exact RB.
      * transitivity (read (pm p) (nth j (p_bufs p) nil_slice)); [apply (R (HB j)); congruence|]. rewrite B.
        destruct (Nat.ltb_spec j (length (u_bufs t))) as [J|J]; [rewrite app_nth1 by exact J; reflexivity|].
        rewrite !nth_overflow; [reflexivity| |lia]. rewrite app_length. cbn [length]. lia.
  - pose proof (read_len _ _ (GD (HB k))) as RLN. cbn [sl] in RLN. rewrite <- B, RLN.
    destruct (Nat.ltb_spec i (s_len (nth k (p_bufs p) nil_slice))) as [I|I]; [|discriminate].
    intros Q. injection Q as <-. eexists. split; [reflexivity|].
    destruct (poke_ok _ _ i x (GD (HB k)) I) as [EV RD]. cbn [sl] in EV, RD.
    set (p' := mkP (mkW (poke (pm p) (nth k (p_bufs p) nil_slice) i x) (w_val (p_w p))) (p_bufs p)).
    assert (K : (k < length (u_bufs t))%nat).
    { apply nth_lt. rewrite <- B, RLN. lia. }
    destruct (separate_evolves p p' (HB k) SP EV) as [SP' R].
    { intros [u|j] N; reflexivity. }
    split; [exact SP'|]. split; [|split].
    + intros u. cbn [p_w w_val u_val]. destruct (V u) as [V1 V2]. split; [exact V1|]. rewrite <- V2. apply (R (HV u)). discriminate.
    + exact (eq_trans L (eq_sym (length_replace _ k _ K))).
    + intros j. etransitivity; [|symmetry; exact (nth_replace _ k _ j [] K)]. destruct (Nat.eqb_spec j k) as [->|N]; [exact RD|].
      rewrite <- B. apply (R (HB j)). congruence.
  - intros Q. injection Q as <-. eexists. split; [reflexivity|]. apply call_shows; auto. apply reset_ok.
  - intros Q. injection Q as <-. eexists. split; [reflexivity|]. apply call_shows; auto.
    destruct (V v) as [V1 V2]. replace (u_val t v) with (pure_of (p_w p) v); [apply ext_ok; exact (GD (HV v))|].
    unfold pure_of. rewrite V1, V2. destruct (u_val t v); reflexivity.
  - intros Q.
    assert (SR : exists d s, t' = mkPure (upd (u_val t) v (set_data (u_val t v) d)) (u_bufs t) /\ src_slice p a = Ok s /\ read (pm p) s = d).
    { destruct a as [k i j|u i j]; cbn [src_slice].
      - rewrite <- B in Q. destruct (part (read (pm p) (nth k (p_bufs p) nil_slice)) i j) as [d|] eqn:PT; [|discriminate].
        injection Q as <-. destruct (part_ok _ _ _ _ _ (GD (HB k)) PT) as (s & S1 & S2). exists d, s. auto.
      - destruct (binary_good (pm p) (p_w p) u eq_refl (GD (HV u))) as [BG BR].
        replace (b_dt (w_val (p_w p) u), read (pm p) (b_bin (w_val (p_w p) u))) with (u_val t u) in BR
          by (destruct (V u) as [V1 V2]; rewrite V1, V2; destruct (u_val t u); reflexivity).
        rewrite <- BR in Q. destruct (part (read (pm p) (Binary (p_w p) u)) i j) as [d|] eqn:PT; [|discriminate].
        injection Q as <-. destruct (part_ok _ _ _ _ _ BG PT) as (s & S1 & S2). exists d, s. auto. }
    destruct SR as (d & s & -> & SS & RD). rewrite SS. cbn [bind]. eexists. split; [reflexivity|]. apply call_shows; auto.
    destruct (V v) as [V1 V2]. replace (u_val t v) with (pure_of (p_w p) v); [rewrite <- RD; apply set_binary_ok; exact (GD (HV v))|].
    unfold pure_of. rewrite V1, V2. destruct (u_val t v); reflexivity.
  - discriminate.
  - intros Q. injection Q as <-. eexists. split; [reflexivity|]. apply call_shows; auto.
    destruct (V v) as [V1 V2]. replace (u_val t v) with (pure_of (p_w p) v); [apply file_ok; exact (GD (HV v))|].
    unfold pure_of. rewrite V1, V2. destruct (u_val t v); reflexivity.
Qed.

Theorem run_shows G os : forall p t t', separate p -> shows p t -> pure_run t os = Some t' ->
  exists p', brun G p os = Ok p' /\ separate p' /\ shows p' t'.
Proof.
  induction os as [|o os IH]; intros p t t' SP SH Q; cbn [pure_run] in Q.
  - injection Q as <-. exists p. auto.
  - destruct (pure_step t o) as [q|] eqn:ST; [|discriminate].
    destruct (step_shows G p t o q SP SH ST) as (p1 & B1 & SP1 & SH1). cbn [brun]. rewrite B1. cbn [bind]. eapply IH; eauto.
Qed.
Lemma start_ok : separate prog0 /\ shows prog0 pure0.
Proof.
  split; [split|split; [|split]].
  - intros [v|[|k]]; apply good_nil.
  - intros [v|[|k]] [u|[|j]] _ P; cbn in P; lia.
  - intros v. split; reflexivity.
  - reflexivity.
  - intros [|k]; reflexivity.
Qed.
