(** Setters followed by getters. *)
From Verif Require Import Base Values Tactics HeapModel HeapSpec HeapBase HeapConf HeapGet ApiSpec HeapMap HeapCalls
  HeapObj HeapForce HeapClone HeapMono GetModel.

(** ** Specification *)
(** [decimal b n]: the text [b] is the number [n]: an optional minus sign and digits without a
    leading zero. *)
Fixpoint digits_val (acc : Z) (b : bytes) : Z :=
  match b with [] => acc | d :: r => digits_val (10 * acc + (d - 48)) r end.
Definition digit (d : Z) : Prop := 48 <= d <= 57.
Inductive decimal : bytes -> Z -> Prop :=
| dec_zero : decimal [48] 0
| dec_pos d r : 49 <= d <= 57 -> Forall digit r -> decimal (d :: r) (digits_val 0 (d :: r))
| dec_neg d r : 49 <= d <= 57 -> Forall digit r -> decimal (45 :: d :: r) (- digits_val 0 (d :: r)).

(** What the readers return for a value holding a number, a text, ... *)
Section Typed.
Variable E : env.
Variable T : tenv.
Inductive reads_int (c : cell) (n : Z) : Prop :=
  ri : Int E c = n -> decimal (fst (StringOf E c)) n -> (Bool E c = true <-> 0 < n) -> Double E c = x_i64_to_f64 E n ->
    Float E T c = t_i64_to_f32 T n -> (forall d, fst (Duration E T c d) = n) -> reads_int c n.
Inductive reads_text (c : cell) (b : bytes) : Prop :=
  rt : fst (StringOf E c) = b -> snd (StringOf E c) = c -> Int E c = x_str2int E b 0 -> Double E c = x_str2f64 E b 0 ->
    Bool E c = x_fold E b [116; 114; 117; 101] -> reads_text c b.
Inductive reads_bool (c : cell) (b : bool) : Prop :=
  rb : Bool E c = b -> Int E c = (if b then 1 else 0) -> fst (StringOf E c) = (if b then [116; 114; 117; 101] else [102; 97; 108; 115; 101]) ->
    reads_bool c b.
(** [v] are the bits of a float64; positive means a clear sign bit and not zero. *)
Inductive reads_double (c : cell) (v : Z) : Prop :=
  rd : Double E c = v -> DateTime E T c = v -> GoTime E T c = Some (x_totime E v) -> Int E c = x_f64_to_i64 E v ->
    Float E T c = x_f64_to_f32 E v -> (Bool E c = true <-> 0 < v < 2^63) -> reads_double c v.
Inductive reads_float (c : cell) (v : Z) : Prop :=
  rf : Float E T c = v -> Double E c = x_f32_to_f64 E v -> Int E c = x_f64_to_i64 E (x_f32_to_f64 E v) -> reads_float c v.

(** ** Decimal printing *)
Lemma dec_digits_spec f : forall n acc, 0 < n < 2 ^ Z.of_nat f -> Forall digit acc ->
  exists d r, dec_digits f n acc = d :: r /\ 49 <= d <= 57 /\ Forall digit r /\ digits_val 0 (d :: r) = digits_val n acc.
Proof.
  induction f as [|f IH]; intros n acc Hn A; [cbn in Hn; lia|]. cbn [dec_digits]. destruct (Z.ltb_spec n 10).
  - exists (48 + n), acc. split; [auto|split; [lia|split; [auto|]]]. cbn [digits_val]. f_equal. lia.
  - rewrite Nat2Z.inj_succ, Z.pow_succ_r in Hn by lia.
    destruct (IH (n / 10) ((48 + n mod 10) :: acc)) as (d & r & Q & D & R & V).
    + split; [apply Z.div_str_pos; lia|]. apply Z.div_lt_upper_bound; lia.
    + constructor; auto. unfold digit. pose proof (Z.mod_pos_bound n 10). lia.
    + exists d, r. split; [auto|split; [auto|split; [auto|]]]. rewrite V. cbn [digits_val]. f_equal. pose proof (Z.div_mod n 10). lia.
Qed.
Lemma dec_nat_spec n : 0 < n -> exists d r, dec_nat n = d :: r /\ 49 <= d <= 57 /\ Forall digit r /\ digits_val 0 (d :: r) = n.
Proof.
  intros Hn. unfold dec_nat. apply (dec_digits_spec _ n []); [|constructor]. split; auto.
  rewrite Nat2Z.inj_succ, Z2Nat.id by apply Z.log2_nonneg. apply Z.log2_spec; auto.
Qed.
Lemma fmt_decimal n : decimal (fmt_int n) n.
Proof.
  unfold fmt_int. destruct (Z.ltb_spec n 0).
  - destruct (dec_nat_spec (- n)) as (d & r & -> & D & R & V); [lia|]. assert (Q : n = - digits_val 0 (d :: r)) by lia. rewrite Q. constructor; auto.
  - destruct (Z.eq_dec n 0) as [->|NZ]; [constructor|]. destruct (dec_nat_spec n) as (d & r & -> & D & R & V); [lia|].
    rewrite <- V. constructor; auto.
Qed.

(** ** Reading cells *)
Lemma i64_u64 n : - 2^63 <= n < 2^63 -> to_i64 (to_u64 n) = n.
Proof.
  intros H. unfold to_i64, to_u64. rewrite Z.mod_mod by lia. destruct (Z.ltb_spec (n mod 2^64) (2^63)); [|]; 
    pose proof (Z.div_mod n (2^64)); pose proof (Z.mod_pos_bound n (2^64)); lia.
Qed.
Lemma cell_int c n : c_dt c = TInt -> c_sv c = to_u64 n -> - 2^63 <= n < 2^63 -> reads_int c n.
Proof.
  intros D S0 B. pose proof (i64_u64 n B) as Q. rewrite <- S0 in Q.
  constructor; unfold Int, StringOf, Bool, Double, Float, Duration; rewrite D, ?Q; auto; cbn [fst].
  - apply fmt_decimal.
  - cbn [vt_code]. change ((4 <=? 4) && (4 <=? 7)) with true. cbv iota. apply Z.ltb_lt.
  - intros _. unfold Int. rewrite D. exact Q.
Qed.
Lemma cell_text c b : c_dt c = TString -> c_str c = b -> reads_text c b.
Proof. intros D <-. constructor; unfold Int, StringOf, Bool, Double; rewrite D; auto. Qed.
Lemma cell_bool c (b : bool) : c_dt c = (if b then TTrue else TFalse) -> reads_bool c b.
Proof. intros D. constructor; unfold Int, StringOf, Bool; rewrite D; destruct b; auto. Qed.
Lemma cell_double c v : (c_dt c = TDouble \/ c_dt c = TDateTime) -> c_sv c = v -> 0 <= v < 2^64 -> reads_double c v.
Proof.
  intros D <- B. assert (BP : Bool E c = true <-> 0 < c_sv c < 2^63).
  { unfold Bool. assert (RG : (vt_code TInt <=? vt_code (c_dt c)) && (vt_code (c_dt c) <=? vt_code TDateTime) = true) by (destruct D as [-> | ->]; reflexivity). rewrite RG. rewrite Z.ltb_lt. unfold to_i64.
    rewrite Z.mod_small by lia. destruct (Z.ltb_spec (c_sv c) (2^63)); lia. }
  constructor; try exact BP; unfold Int, DateTime, GoTime, Double, Float; destruct D as [-> | ->]; reflexivity.
Qed.
Lemma cell_float c v : c_dt c = TFloat -> c_sv c mod 2^32 = v -> reads_float c v.
Proof. intros D <-. constructor; unfold Int, Double, Float; rewrite D; auto. Qed.

(** ** The setters *)
Lemma reset_5 s l t : (5 <= l)%nat -> Reset s l t = set_cell s l (reset_cell (hp s l) t).
Proof. intros L. unfold Reset. rewrite (proj2 (ReadOnly_ge l) L). reflexivity. Qed.
Lemma ensure_dt s l t : (5 <= l)%nat -> c_dt (hp (ensure s l t) l) = t /\ (forall x, x <> l -> hp (ensure s l t) x = hp s x).
Proof.
  intros L. unfold ensure. destruct (vt_eqb (c_dt (hp s l)) t) eqn:Q.
  - apply vt_eqb_eq in Q. auto.
  - rewrite reset_5 by auto. cbn [set_cell hp]. rewrite upd_same. split; [apply dt_reset|]. intros x X. apply upd_other; auto.
Qed.
Definition touches (s s' : st) (l : nat) : Prop := (forall x, x <> l -> hp s' x = hp s x) /\ nx s' = nx s /\ cs s' = cs s /\ nc s' = nc s.
Lemma touch_set s l c : touches s (set_cell s l c) l.
Proof. split; [|auto]. intros x X. cbn [set_cell hp]. apply upd_other; auto. Qed.
Lemma touch_trans s s1 s2 l : touches s s1 l -> touches s1 s2 l -> touches s s2 l.
Proof. intros (A & B & C & D) (A' & B' & C' & D'). split; [|split; [|split]]; try congruence. intros x X. rewrite A', A; auto. Qed.
Lemma touch_refl s l : touches s s l. Proof. split; auto. Qed.
Lemma touch_reset s l t : touches s (Reset s l t) l.
Proof. unfold Reset. destruct (ReadOnly l); [apply touch_refl|apply touch_set]. Qed.
Lemma touch_ensure s l t : touches s (ensure s l t) l.
Proof. unfold ensure. destruct (vt_eqb _ _); [apply touch_refl|apply touch_reset]. Qed.

Lemma set_int s l n : (5 <= l)%nat -> - 2^63 <= n < 2^63 -> reads_int (hp (SetInt s l n) l) n /\ touches s (SetInt s l n) l.
Proof.
  intros L B. unfold SetInt. split.
  - cbn [set_cell hp]. rewrite upd_same. apply cell_int; auto. cbn [w_sv c_dt]. apply ensure_dt; auto.
  - eapply touch_trans; [apply touch_ensure|apply touch_set].
Qed.
Lemma set_string s l b : (5 <= l)%nat -> reads_text (hp (SetString s l b) l) b /\ touches s (SetString s l b) l.
Proof.
  intros L. unfold SetString. split.
  - cbn [set_cell hp]. rewrite upd_same. apply cell_text; auto. cbn [w_str c_dt]. apply ensure_dt; auto.
  - eapply touch_trans; [apply touch_ensure|apply touch_set].
Qed.
Lemma set_bool s l b : (5 <= l)%nat -> reads_bool (hp (SetBool s l b) l) b /\ touches s (SetBool s l b) l.
Proof.
  intros L. unfold SetBool. rewrite (proj2 (ReadOnly_ge l) L), reset_5 by auto. split; [|apply touch_set].
  cbn [set_cell hp]. rewrite upd_same. apply cell_bool. apply dt_reset.
Qed.
Lemma dbl_dt s l t : (5 <= l)%nat -> (t = TDouble \/ t = TDateTime) ->
  let s1 := if is_dbl (c_dt (hp s l)) then s else Reset s l t in
  (c_dt (hp s1 l) = TDouble \/ c_dt (hp s1 l) = TDateTime) /\ touches s s1 l.
Proof.
  intros L TT s1. subst s1. destruct (is_dbl (c_dt (hp s l))) eqn:Q.
  - unfold is_dbl in Q. apply orb_true_iff in Q as [Q|Q]; apply vt_eqb_eq in Q; split; auto using touch_refl.
  - split; [|apply touch_reset]. rewrite reset_5 by auto. cbn [set_cell hp]. rewrite upd_same, dt_reset. exact TT.
Qed.
Lemma set_double s l v : (5 <= l)%nat -> 0 <= v < 2^64 -> reads_double (hp (SetDouble s l v) l) v /\ touches s (SetDouble s l v) l.
Proof.
  intros L B. unfold SetDouble. rewrite (proj2 (ReadOnly_ge l) L). destruct (dbl_dt s l TDouble L (or_introl eq_refl)) as [D C]. split.
  - cbn [set_cell hp]. rewrite upd_same. apply cell_double; auto.
  - eapply touch_trans; [exact C|apply touch_set].
Qed.
Lemma set_delphi s l v : (5 <= l)%nat -> 0 <= v < 2^64 -> reads_double (hp (SetDelphiTime s l v) l) v /\ touches s (SetDelphiTime s l v) l.
Proof.
  intros L B. unfold SetDelphiTime. destruct (dbl_dt s l TDateTime L (or_intror eq_refl)) as [D C]. split.
  - cbn [set_cell hp]. rewrite upd_same. apply cell_double; auto.
  - eapply touch_trans; [exact C|apply touch_set].
Qed.
Lemma set_float s l v : (5 <= l)%nat -> 0 <= v < 2^32 -> reads_float (hp (SetFloat s l v) l) v /\ touches s (SetFloat s l v) l.
Proof.
  intros L B. unfold SetFloat. rewrite (proj2 (ReadOnly_ge l) L). split.
  - cbn [set_cell hp]. rewrite upd_same. apply cell_float; [cbn [w_sv c_dt]; apply ensure_dt; auto|].
    cbn [w_sv c_sv]. rewrite Z.add_comm, Z.mod_add by lia. apply Z.mod_small; auto.
  - eapply touch_trans; [apply touch_ensure|apply touch_set].
Qed.
End Typed.

(** ** Keyed setters, read back through the path getters *)
Section Keyed.
Variable E : env.
Variable G : nat -> nat.
Hypothesis EO : env_ok E.
Notation N := none_set.
Notation hop := (hop E).
Notation put := (put E).

Lemma get_hop s l key n : hop s l key n ->
  fst (ValueByPath E s (Some l) [key]) = Some n /\
  (forall d, fst (IntByPath E s (Some l) d [key]) = Int E (hp s n)) /\
  (forall d, fst (BoolByPath E s (Some l) d [key]) = Bool E (hp s n)) /\
  (forall d, fst (DoubleByPath E s (Some l) d [key]) = Double E (hp s n)) /\
  (forall d, fst (StringByPath E s (Some l) d [key]) = fst (StringOf E (hp s n))).
Proof.
  intros H. assert (C : fst (path_loop E s l [key]) = Some n).
  { apply (chain_path E G EO). econstructor; [exact H|constructor]. }
  unfold IntByPath, BoolByPath, DoubleByPath, StringByPath, ValueByPath.
  destruct (path_cells E [key] s l n) as (H1 & H2 & H3).
  destruct (path_loop E s l [key]) as [q s1]; cbn [fst snd] in *. subst q. split; [auto|].
  unfold Int, Bool, Double, StringOf. rewrite H1, H2, H3. repeat split; intros _; auto. destruct (c_dt (hp s n)); reflexivity.
Qed.

Lemma put_then s m key t n s3 s4 : put s m key t n s3 -> touches s3 s4 n ->
  hop s4 m key n /\ forall x, live s x -> x <> m -> x <> n -> hp s4 x = hp s x.
Proof.
  intros P (F & _). pose proof (p_neq _ _ _ _ _ _ _ P) as NE. split.
  - apply (hop_same E s3); [apply F; auto|apply P].
  - intros x X Xm Xn. rewrite F by auto. apply P; auto.
Qed.
Lemma put_5 s m key t n s3 : put s m key t n s3 -> vt_code t < vt_code TNull -> (5 <= n)%nat.
Proof.
  intros P L. destruct (Nat.lt_ge_cases n 5) as [X|X]; auto. pose proof (p_dt _ _ _ _ _ _ _ P) as D.
  rewrite (i_const _ _ _ (p_wf _ _ _ _ _ _ _ P) n X) in D. destruct n as [|[|[|[|[|]]]]]; cbn in D; subst t; cbn in L; lia.
Qed.

Definition target (s : st) (l : nat) (name : bytes) : Prop :=
  tidy E s l /\ (c_dt (hp s l) = TObject \/ c_dt (hp s l) = TArray) /\
  (c_dt (hp s l) = TArray -> -1 <= x_str2int E name (-1) <= zlen (c_arr (hp s l))).
(** [r] is what the name leads to now; apart from it and the container nothing in use has changed. *)
Definition holds (s : st) (l : nat) (name : bytes) (s' : st) (r : nat) : Prop :=
  fst (ValueByPath E s' (Some l) [name]) = Some r /\ forall x, live s x -> x <> l -> x <> r -> hp s' x = hp s x.

Lemma key_int T s l name n s' : target s l name -> - 2^63 <= n < 2^63 -> SetKeyInt E G s l name n = Ok s' ->
  exists r, holds s l name s' r /\ reads_int E T (hp s' r) n /\ forall d, fst (IntByPath E s' (Some l) d [name]) = n.
Proof.
  intros (Td & C & A) B H. unfold SetKeyInt in H. apply bind_Ok in H as ([r s1] & H1 & H2). injection H2 as <-.
  pose proof (put_any E G EO _ _ _ _ _ _ Td C A H1) as P.
  destruct (set_int E T s1 r n (put_5 _ _ _ _ _ _ P eq_refl) B) as [R TC].
  destruct (put_then _ _ _ _ _ _ _ P TC) as [HP FR]. destruct (get_hop _ _ _ _ HP) as (V & GI & _).
  exists r. split; [split; auto|]. split; [exact R|]. intros d. rewrite GI. apply R.
Qed.
Lemma key_string s l name b s' : target s l name -> SetKeyString E G s l name b = Ok s' ->
  exists r, holds s l name s' r /\ reads_text E (hp s' r) b /\ forall d, fst (StringByPath E s' (Some l) d [name]) = b.
Proof.
  intros (Td & C & A) H. unfold SetKeyString in H. apply bind_Ok in H as ([r s1] & H1 & H2). injection H2 as <-.
  pose proof (put_any E G EO _ _ _ _ _ _ Td C A H1) as P.
  destruct (put_then _ _ _ _ _ _ _ P (touch_set s1 r (w_str (hp s1 r) b))) as [HP FR]. destruct (get_hop _ _ _ _ HP) as (V & _ & _ & _ & GI).
  assert (R : reads_text E (hp (set_cell s1 r (w_str (hp s1 r) b)) r) b).
  { cbn [set_cell hp]. rewrite upd_same. apply cell_text; auto. cbn [w_str c_dt]. apply P. }
  exists r. split; [split; auto|]. split; [exact R|]. intros d. rewrite GI. apply R.
Qed.
Lemma key_double T s l name v s' : target s l name -> 0 <= v < 2^64 -> SetKeyDouble E G s l name v = Ok s' ->
  exists r, holds s l name s' r /\ reads_double E T (hp s' r) v /\ forall d, fst (DoubleByPath E s' (Some l) d [name]) = v.
Proof.
  intros (Td & C & A) B H. unfold SetKeyDouble in H. apply bind_Ok in H as ([r s1] & H1 & H2). injection H2 as <-.
  pose proof (put_any E G EO _ _ _ _ _ _ Td C A H1) as P.
  destruct (set_double E T s1 r v (put_5 _ _ _ _ _ _ P eq_refl) B) as [R TC].
  destruct (put_then _ _ _ _ _ _ _ P TC) as [HP FR]. destruct (get_hop _ _ _ _ HP) as (V & _ & _ & GI & _).
  exists r. split; [split; auto|]. split; [exact R|]. intros d. rewrite GI. apply R.
Qed.
Lemma key_time T s l name t s' : target s l name -> 0 <= x_delphi E t < 2^64 -> SetKeyTime E G s l name t = Ok s' ->
  exists r, holds s l name s' r /\ reads_double E T (hp s' r) (x_delphi E t).
Proof.
  intros (Td & C & A) B H. unfold SetKeyTime in H. apply bind_Ok in H as ([r s1] & H1 & H2). injection H2 as <-.
  pose proof (put_any E G EO _ _ _ _ _ _ Td C A H1) as P.
  destruct (set_delphi E T s1 r _ (put_5 _ _ _ _ _ _ P eq_refl) B) as [R TC]. fold (SetTime E s1 r t) in *.
  destruct (put_then _ _ _ _ _ _ _ P TC) as [HP FR]. destruct (get_hop _ _ _ _ HP) as (V & _).
  exists r. split; [split; auto|exact R].
Qed.
Lemma key_float T s l name v s' : target s l name -> 0 <= v < 2^32 -> SetKeyFloat E G s l name v = Ok s' ->
  exists r, holds s l name s' r /\ reads_float E T (hp s' r) v /\ forall d, fst (DoubleByPath E s' (Some l) d [name]) = x_f32_to_f64 E v.
Proof.
  intros (Td & C & A) B H. unfold SetKeyFloat in H. apply bind_Ok in H as ([r s1] & H1 & H2). injection H2 as <-.
  pose proof (put_any E G EO _ _ _ _ _ _ Td C A H1) as P.
  destruct (set_float E T s1 r v (put_5 _ _ _ _ _ _ P eq_refl) B) as [R TC].
  destruct (put_then _ _ _ _ _ _ _ P TC) as [HP FR]. destruct (get_hop _ _ _ _ HP) as (V & _ & _ & GI & _).
  exists r. split; [split; auto|]. split; [exact R|]. intros d. rewrite GI. apply R.
Qed.
Lemma key_bool s l name b : tidy E s l -> c_dt (hp s l) = TObject ->
  (forall d, fst (BoolByPath E (SetKeyBool E G s l name b) (Some l) d [name]) = b) /\
  (forall x, x <> l -> hp (SetKeyBool E G s l name b) x = hp s x).
Proof.
  intros Td D. unfold SetKeyBool. set (q := if b then loc_true else loc_false).
  assert (Q5 : (q < 5)%nat) by (subst q; destruct b; unfold loc_true, loc_false; lia).
  pose proof (td_wf _ _ _ Td) as W. pose proof (tidy_good E s l Td D) as Gd. pose proof (good_5 s l W (or_introl D)) as L5.
  assert (DK : distinct_keys (key_match E) (pairs E s l)) by (apply (td_keys _ _ _ Td); [constructor|auto]).
  assert (X : repr E ([ESet name (Some q)] ++ as_history (pairs E s l)) (match find_key E (pairs E s l) name with
      | Some i => set_val i (Some q) (pairs E s l) | None => pairs E s l ++ [(name, Some q)] end)).
  { apply (repr_set E EO); auto. apply (repr_init E EO); auto. }
  destruct (set_value_spec E G EO s l name (Some q) Gd DK) as [G3 P3].
  { intros Q. assert (q = l) by congruence. lia. }
  { intros x Q. assert (q = x) as <- by congruence. apply (const_live G s q W); auto. }
  assert (F : forall x, x <> l -> hp (SetKeyValue E G s l name (Some q)) x = hp s x).
  { intros x Xl. unfold SetKeyValue. rewrite D. change (vt_eqb TObject TArray) with false. change (vt_eqb TObject TObject) with true.
    cbn [andb]. cbv zeta. unfold obj_index. destruct (index_by_name E (c_unesc (hp s l)) (c_kvs (hp s l)) name) as [[i|] [u kv]];
      cbn [set_cell hp]; rewrite !upd_other by auto; reflexivity. }
  split; [|exact F]. set (s3 := SetKeyValue E G s l name (Some q)) in *.
  assert (HOP : hop s3 l name q).
  { destruct (find_key E (pairs E s l) name) as [i|] eqn:FK.
    - destruct (find_set_same E (pairs E s l) name i (Some q) FK) as (_ & k & I & S0).
      apply (hop_key E s3 l name q k); auto; [apply G3|rewrite P3; apply X|rewrite P3; eapply nth_error_In; eauto].
    - apply (hop_key E s3 l name q name); auto; [apply G3|rewrite P3; apply X| |].
      + rewrite P3. apply in_or_app; right; left; auto.
      + unfold key_match. rewrite beq_refl. apply orb_true_r. }
  destruct (get_hop _ _ _ _ HOP) as (_ & _ & GI & _). intros d. rewrite GI, F by (intros Q; lia).
  unfold Bool. rewrite (i_const _ _ _ W q Q5). subst q. destruct b; reflexivity.
Qed.
End Keyed.
