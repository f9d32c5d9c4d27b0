(** [Equal]: on trees without raw strings and float32 it decides equality of content. *)
From Verif Require Import Base Values Tactics HeapModel HeapSpec HeapBase HeapConf HeapGet ApiSpec HeapClone.

(** ** Specification *)
Section Spec.
Variable E : env.
(** The key a pair stands for. *)
Definition ukey (u : bool) (k : bytes) : bytes := if u then k else x_unescape E k.
(** Same content: same shape, same keys in the same order, same scalars; an integer and a double are
    compared as float64.  The extension type is not content. *)
Inductive same : value -> value -> Prop :=
| same_nil : same VNilP VNilP
| same_obj u u' a b : Forall2 (fun x y => ukey u (fst x) = ukey u' (fst y) /\ same (snd x) (snd y)) a b ->
    same (VObject u a) (VObject u' b)
| same_arr a b : Forall2 same a b -> same (VArray a) (VArray b)
| same_str b : same (VString b) (VString b)
| same_int e e' n : same (VInt e n) (VInt e' n)
| same_dbl b : same (VDouble b) (VDouble b)
| same_int_dbl e n b : x_f64_eq E (x_i64_to_f64 E n) b = true -> same (VInt e n) (VDouble b)
| same_dbl_int e n b : x_f64_eq E b (x_i64_to_f64 E n) = true -> same (VDouble b) (VInt e n)
| same_date b : same (VDateTime b) (VDateTime b)
| same_bin e e' b : same (VBinary e b) (VBinary e' b)
| same_exb e e' b : same (VExBinary e b) (VExBinary e' b)
| same_null : same VNull VNull | same_true : same VTrue VTrue | same_false : same VFalse VFalse
| same_nan : same VNan VNan | same_inf : same VInf VInf.
End Spec.
(** No raw strings, no float32. *)
Fixpoint plain (v : value) : Prop :=
  match v with
  | VRawString _ | VFloat _ => False
  | VObject _ kvs => (fix go l := match l with [] => True | kv :: r => plain (snd kv) /\ go r end) kvs
  | VArray l => (fix go l := match l with [] => True | x :: r => plain x /\ go r end) l
  | _ => True
  end.
(** Arrays at corresponding places have the same length. *)
Fixpoint arrays_match (v w : value) : Prop :=
  match v, w with
  | VObject _ a, VObject _ b =>
      (fix go (a b : list (bytes * value)) := match a, b with
        | x :: a', y :: b' => arrays_match (snd x) (snd y) /\ go a' b' | _, _ => True end) a b
  | VArray a, VArray b => List.length a = List.length b /\
      (fix go (a b : list value) := match a, b with
        | x :: a', y :: b' => arrays_match x y /\ go a' b' | _, _ => True end) a b
  | _, _ => True
  end.

Lemma F2_length {A B} (R : A -> B -> Prop) a b : Forall2 R a b -> List.length a = List.length b.
Proof. induction 1; cbn; congruence. Qed.
Lemma F2_impl {A B} (R T : A -> B -> Prop) a b : (forall x y, R x y -> T x y) -> Forall2 R a b -> Forall2 T a b.
Proof. induction 2; constructor; auto. Qed.
Lemma plain_obj u kvs : plain (VObject u kvs) <-> Forall (fun kv => plain (snd kv)) kvs.
Proof.
  cbn [plain]. induction kvs as [|kv r IH].
  - split; [constructor|auto].
  - rewrite IH. split; [intros [A B]; constructor; auto|intros A; inversion A; auto].
Qed.
Lemma plain_arr l : plain (VArray l) <-> Forall plain l.
Proof.
  cbn [plain]. induction l as [|kv r IH].
  - split; [constructor|auto].
  - rewrite IH. split; [intros [A B]; constructor; auto|intros A; inversion A; auto].
Qed.
Lemma match_obj u u' a : forall b, List.length a = List.length b ->
  (arrays_match (VObject u a) (VObject u' b) <-> Forall2 (fun x y => arrays_match (snd x) (snd y)) a b).
Proof.
  cbn [arrays_match]. induction a as [|x a IH]; intros [|y b] L; try discriminate.
  - split; [constructor|auto].
  - rewrite IH by (cbn in L; lia). split; [intros [A B]; constructor; auto|intros A; inversion A; auto].
Qed.
Lemma match_arr a : forall b, arrays_match (VArray a) (VArray b) <-> Forall2 arrays_match a b.
Proof.
  intros b. cbn [arrays_match]. split.
  - intros [L H]. revert b L H. induction a as [|x a IH]; intros [|y b] L H; try discriminate; constructor; [apply H|].
    apply IH; [cbn in L; lia|apply H].
  - intros F. split; [eapply F2_length; eauto|]. induction F; cbn; auto.
Qed.

Section EqualProof.
Variable E : env.
Notation same := (same E).
Notation ukey := (ukey E).

Lemma ukeys {A} u (kvs : list (bytes * A)) : unescape_keys E u kvs = map (fun kv => (ukey u (fst kv), snd kv)) kvs.
Proof.
  unfold unescape_keys, ukey. destruct u; auto. induction kvs as [|[k x] r IH]; cbn; congruence.
Qed.

(** ** Reading only unescapes keys *)
Definition lazy (h h' : nat -> cell) : Prop :=
  forall x, h' x = h x \/ (c_dt (h x) = TObject /\ h' x = unescape_cell E (h x)).
Lemma unescape_done c : c_unesc c = true -> unescape_cell E c = c.
Proof. destruct c. cbn. intros ->. reflexivity. Qed.
Lemma unescape_twice c : unescape_cell E (unescape_cell E c) = unescape_cell E c.
Proof. apply unescape_done. reflexivity. Qed.
Lemma lazy_refl h : lazy h h. Proof. intros x; auto. Qed.
Lemma lazy_trans h1 h2 h3 : lazy h1 h2 -> lazy h2 h3 -> lazy h1 h3.
Proof.
  intros A B x. destruct (A x) as [Q|[D Q]], (B x) as [Q'|[D' Q']]; rewrite Q'; rewrite Q in *; auto.
Qed.
Lemma lazy_one s l : c_dt (hp s l) = TObject -> lazy (hp s) (hp (set_cell s l (unescape_cell E (hp s l)))).
Proof.
  intros D x. cbn [set_cell hp]. destruct (Nat.eq_dec x l) as [->|Q]; [rewrite upd_same; auto|rewrite upd_other by auto; auto].
Qed.
Lemma lazy_dt h h' x : lazy h h' -> c_dt (h' x) = c_dt (h x) /\ c_sv (h' x) = c_sv (h x) /\ c_arr (h' x) = c_arr (h x).
Proof. intros L. destruct (L x) as [->|[_ ->]]; auto. Qed.
Lemma lazy_done h h' x : lazy h h' -> c_unesc (h x) = true -> h' x = h x.
Proof. intros L U. destruct (L x) as [->|[_ ->]]; auto. apply unescape_done; auto. Qed.

Fixpoint norm (v : value) : value :=
  match v with
  | VObject u kvs => VObject true (map (fun kv => (ukey u (fst kv), norm (snd kv))) kvs)
  | VArray l => VArray (map norm l)
  | _ => v
  end.
Definition nrep (h : nat -> cell) (p : ptr) (v : value) : Prop := exists v', rep h p v' /\ norm v' = norm v.

Lemma nrep_obj_inv h p u kvs : nrep h p (VObject u kvs) -> exists l, p = Some l /\ c_dt (h l) = TObject /\
  Forall2 (fun a b => ukey (c_unesc (h l)) (fst a) = ukey u (fst b) /\ nrep h (snd a) (snd b)) (c_kvs (h l)) kvs.
Proof.
  intros (v' & R & Q). destruct v'; cbn [norm] in Q; try discriminate. injection Q as Q.
  apply rep_obj_inv in R as (l & -> & D & -> & F). exists l. split; [auto|split; [auto|]].
  revert kvs Q. induction F as [|a b la lb [K R] F IH]; intros [|kv kvs] Q; try discriminate; constructor.
  - cbn [map] in Q. injection Q as Q1 Q2 Q3. split; [congruence|]. exists (snd b). auto.
  - apply IH. cbn [map] in Q. injection Q as Q1 Q2 Q3. exact Q3.
Qed.
Lemma nrep_arr_inv h p vs : nrep h p (VArray vs) -> exists l, p = Some l /\ c_dt (h l) = TArray /\
  Forall2 (nrep h) (c_arr (h l)) vs.
Proof.
  intros (v' & R & Q). destruct v'; cbn [norm] in Q; try discriminate. injection Q as Q.
  apply rep_arr_inv in R as (l0 & -> & D & F). exists l0. split; [auto|split; [auto|]].
  revert vs Q. induction F as [|a b la lb R F IH]; intros [|kv kvs] Q; try discriminate; constructor.
  - cbn [map] in Q. injection Q as Q1 Q2. exists b. auto.
  - apply IH. cbn [map] in Q. injection Q as Q1 Q2. exact Q2.
Qed.
Lemma nrep_scalar h p v : nrep h p v -> match v with VObject _ _ | VArray _ => True | _ => rep h p v end.
Proof. intros (v' & R & Q). destruct v; auto; destruct v'; cbn [norm] in Q; try discriminate; first [exact R|injection Q; intros; subst; exact R]. Qed.

Lemma rep_lazy h h' v : lazy h h' -> forall p, rep h p v -> nrep h' p v.
Proof.
  intros L. induction v using value_ind'; intros p R.
  2:{ apply rep_obj_inv in R as (l & -> & D & -> & F).
    assert (X : exists kvs', Forall2 (fun a b => fst a = fst b /\ rep h' (snd a) (snd b)) (c_kvs (h l)) kvs' /\
        Forall2 (fun a b => fst a = fst b /\ norm (snd a) = norm (snd b)) kvs' kvs).
    { clear D. induction F as [|a b la lb [K R] F IH]; [exists []; split; constructor|].
      inversion H as [|? ? HA HB]; subst. destruct (IH HB) as (k' & I1 & I2). destruct (HA _ R) as (w & R1 & N1).
      exists ((fst b, w) :: k'). split; constructor; auto. }
    destruct X as (kvs' & F1 & F2). destruct (L l) as [Q|[_ Q]].
    - exists (VObject (c_unesc (h l)) kvs'). split; [apply rep_obj_intro; rewrite Q; auto|].
      cbn [norm]. f_equal. clear - F2. induction F2 as [|a b la lb [K N] F2 IH]; cbn; [auto|]. rewrite K, N, IH. reflexivity.
    - exists (VObject true (map (fun kv => (ukey (c_unesc (h l)) (fst kv), snd kv)) kvs')). split.
      + apply rep_obj_intro; rewrite Q; auto. cbn [unescape_cell w_obj c_kvs]. rewrite ukeys. clear - F1.
        induction F1 as [|a b la lb [K R] F1 IH]; cbn [map]; constructor; auto. cbn [fst snd]. rewrite K. auto.
      + cbn [norm]. f_equal. rewrite map_map. cbn [fst snd HeapEqual.ukey].
        clear - F2. induction F2 as [|a b la lb [K N] F2 IH]; cbn [map]; [auto|]. rewrite K, N, IH. reflexivity. }
  2:{ apply rep_arr_inv in R as (l0 & -> & D & F).
    assert (X : exists vs', Forall2 (rep h') (c_arr (h l0)) vs' /\ map norm vs' = map norm l).
    { clear D. induction F as [|a b la lb R F IH]; [exists []; split; constructor|].
      inversion H as [|? ? HA HB]; subst. destruct (IH HB) as (k' & I1 & I2). destruct (HA _ R) as (w & R1 & N1).
      exists (w :: k'). split; [constructor; auto|]. cbn. congruence. }
    destruct X as (vs' & F1 & F2). destruct (lazy_dt h h' l0 L) as (D' & _ & A').
    exists (VArray vs'). split; [|cbn; congruence]. constructor; congruence. }
  all: inversion R as [| | | l Q| l Q| l Q| l Q| l Q| l Q| l Q| l Q| l Q| l Q| l Q| l Q| l Q]; subst.
  all: eexists; split; [|reflexivity].
  1: constructor.
  all: assert (HL : h' l = h l) by (destruct (L l) as [Q'|[Q' _]]; [exact Q'|congruence]);
    try rewrite <- HL; constructor; congruence.
Qed.
Lemma nrep_lazy h h' p v : lazy h h' -> nrep h p v -> nrep h' p v.
Proof. intros L (v' & R & Q). destruct (rep_lazy h h' v' L p R) as (w & R1 & Q1). exists w. split; congruence. Qed.

(** The 8-byte slot of every cell is a 64-bit word. *)
Definition slots64 (h : nat -> cell) : Prop := forall x, 0 <= c_sv (h x) < 2^64.
Lemma slots_lazy h h' : lazy h h' -> slots64 h -> slots64 h'.
Proof. intros L S0 x. destruct (lazy_dt h h' x L) as (_ & -> & _). apply S0. Qed.
Lemma i64_inj a b : 0 <= a < 2^64 -> 0 <= b < 2^64 -> to_i64 a = to_i64 b -> a = b.
Proof. unfold to_i64. intros A B. repeat zif; lia. Qed.

Lemma Equal_S f s p q : Equal E (S f) s p q =
      match p, q with
      | None, None => Ok (true, s)
      | None, Some _ | Some _, None => Ok (false, s)
      | Some l, Some m =>
          let a := hp s l in
          let b := hp s m in
          if negb (vt_eqb (c_dt a) (c_dt b)) then
            if (vt_eqb (c_dt a) TString && vt_eqb (c_dt b) TRaw) ||
               (vt_eqb (c_dt b) TString && vt_eqb (c_dt a) TRaw) then
              let (x, a') := StringOf E a in
              let s1 := set_cell s l a' in
              let (y, b') := StringOf E (hp s1 m) in
              Ok (x_fold E x y, set_cell s1 m b')
            else if numeric (c_dt a) && numeric (c_dt b) then
              Ok (x_f64_eq E (Double E a) (Double E b), s)
            else Ok (false, s)
          else
            match c_dt a with
            | TString | TRaw => Ok (beq (c_str a) (c_str b), s)
            | TBinary | TExBinary => Ok (beq (c_bin a) (c_bin b), s)
            | TObject =>
                if negb (zlen (c_kvs a) =? zlen (c_kvs b)) then Ok (false, s)
                else
                  let s1 := set_cell s l (unescape_cell E (hp s l)) in
                  let s2 := set_cell s1 m (unescape_cell E (hp s1 m)) in
                  equal_kvs E f s2 l m O
            | TArray => equal_arr E f s l m O
            | TInt | TFloat | TDouble | TDateTime => Ok (c_sv a =? c_sv b, s)
            | _ => Ok (true, s)
            end
      end.
Proof. reflexivity. Qed.
Lemma equal_kvs_S f s l m i : equal_kvs E (S f) s l m i =
      match nth_error (c_kvs (hp s l)) i with
      | None => Ok (true, s)
      | Some (k, p) =>
          match nth_error (c_kvs (hp s m)) i with
          | None => Panic
          | Some (k', q) =>
              if negb (beq k k') then Ok (false, s)
              else do (r, s1) <- Equal E f s p q;
                   if (r : bool) then equal_kvs E f s1 l m (S i) else Ok (false, s1)
          end
      end.
Proof. reflexivity. Qed.
Lemma equal_arr_S f s l m i : equal_arr E (S f) s l m i =
      match nth_error (c_arr (hp s l)) i with
      | None => Ok (true, s)
      | Some p =>
          match nth_error (c_arr (hp s m)) i with
          | None => Panic
          | Some q =>
              do (r, s1) <- Equal E f s p q;
              if (r : bool) then equal_arr E f s1 l m (S i) else Ok (false, s1)
          end
      end.
Proof. reflexivity. Qed.

(** Outcome of a comparison: a verdict for [X], and a state that differs by unescaped keys only. *)
Definition answers (r : res (bool * st)) (s : st) (X : Prop) : Prop :=
  exists b s', r = Ok (b, s') /\ lazy (hp s) (hp s') /\ (b = true <-> X).
Definition decides (v w : value) : Prop :=
  exists n0, forall fuel s p q, (n0 <= fuel)%nat -> slots64 (hp s) ->
    nrep (hp s) p v -> nrep (hp s) q w -> answers (Equal E fuel s p q) s (same v w).

Lemma skipn_hd {A} (l : list A) i x r : skipn i l = x :: r -> nth_error l i = Some x /\ skipn (S i) l = r.
Proof.
  revert i; induction l as [|a l IH]; intros [|i] Q; cbn in *; try discriminate; [injection Q as -> ->; auto|].
  apply IH in Q as [A1 A2]. split; [exact A1|]. destruct l; cbn in *; auto. 
Qed.
Lemma skipn_nil_nth {A} (l : list A) i : skipn i l = [] -> nth_error l i = None.
Proof. revert i; induction l as [|a l IH]; intros [|i] Q; cbn in *; try discriminate; auto. Qed.

Definition at_keys (h : nat -> cell) (l i : nat) (kvs : list (bytes * value)) : Prop :=
  c_dt (h l) = TObject /\ c_unesc (h l) = true /\
  Forall2 (fun a b => fst a = fst b /\ nrep h (snd a) (snd b)) (skipn i (c_kvs (h l))) kvs.
Lemma at_keys_lazy h h' l i kvs : lazy h h' -> at_keys h l i kvs -> at_keys h' l i kvs.
Proof.
  intros L (D & U & F). unfold at_keys. rewrite (lazy_done h h' l L U). split; [auto|split; [auto|]].
  eapply F2_impl; [|exact F]. intros a b [K R]. split; [exact K|]. eapply nrep_lazy; eauto.
Qed.
Lemma at_keys_next h l i x kvs : at_keys h l i (x :: kvs) ->
  exists p, nth_error (c_kvs (h l)) i = Some (fst x, p) /\ nrep h p (snd x) /\ at_keys h l (S i) kvs.
Proof.
  intros (D & U & F). inversion F as [|a b la lb [K R] F' Q1 Q2]; subst. symmetry in Q1.
  apply skipn_hd in Q1 as [N Q]. exists (snd a). rewrite <- K. rewrite N. destruct a; cbn [fst snd] in *.
  split; [auto|split; [auto|]]. unfold at_keys. rewrite Q. auto.
Qed.

Lemma decides_kvs ka : forall kb, Forall2 (fun x y => decides (snd x) (snd y)) ka kb ->
  exists n0, forall fuel s l m i, (n0 <= fuel)%nat -> slots64 (hp s) ->
    at_keys (hp s) l i ka -> at_keys (hp s) m i kb ->
    answers (equal_kvs E fuel s l m i) s (Forall2 (fun x y => fst x = fst y /\ same (snd x) (snd y)) ka kb).
Proof.
  induction ka as [|x ka IH]; intros kb F; inversion F as [|? y ? kb' Hd Ht]; subst.
  - exists 1%nat. intros [|f] s l m i Hf HS (_ & _ & A) _; [lia|]. inversion A as [Q|]; subst.
    rewrite equal_kvs_S, (skipn_nil_nth _ _ (eq_sym Q)). exists true, s. split; [auto|split; [apply lazy_refl|]].
    split; [constructor|auto].
  - destruct Hd as (n1 & Hd). destruct (IH kb' Ht) as (n2 & Hn). exists (S (n1 + n2)).
    intros [|f] s l m i Hf HS A B; [lia|].
    destruct (at_keys_next _ _ _ _ _ A) as (p & NA & RA & A').
    destruct (at_keys_next _ _ _ _ _ B) as (q & NB & RB & B').
    rewrite equal_kvs_S, NA, NB. destruct (beq (fst x) (fst y)) eqn:K; cbn [negb].
    2:{ exists false, s. split; [auto|split; [apply lazy_refl|]]. split; [discriminate|]. intros C.
        inversion C as [|? ? ? ? [K' _] _]; subst. rewrite K' in K. rewrite beq_refl in K. discriminate. }
    apply beq_eq in K.
    destruct (Hd f s p q ltac:(lia) HS RA RB) as (b & s1 & Q1 & L1 & V1). rewrite Q1. cbn [bind].
    destruct b.
    2:{ exists false, s1. split; [auto|split; [auto|]]. split; [discriminate|]. intros C.
        inversion C as [|? ? ? ? [_ W] _]; subst. apply V1 in W. discriminate. }
    destruct (Hn f s1 l m (S i) ltac:(lia) (slots_lazy _ _ L1 HS) (at_keys_lazy _ _ _ _ _ L1 A') (at_keys_lazy _ _ _ _ _ L1 B'))
      as (b & s2 & Q2 & L2 & V2).
    exists b, s2. split; [exact Q2|split; [eapply lazy_trans; eauto|]]. rewrite V2. split.
    + intros W. constructor; auto. split; [auto|]. apply V1. reflexivity.
    + intros W. inversion W; auto.
Qed.

Definition at_elems (h : nat -> cell) (l i : nat) (vs : list value) : Prop :=
  c_dt (h l) = TArray /\ Forall2 (nrep h) (skipn i (c_arr (h l))) vs.
Lemma at_elems_lazy h h' l i vs : lazy h h' -> at_elems h l i vs -> at_elems h' l i vs.
Proof.
  intros L (D & F). unfold at_elems. destruct (lazy_dt h h' l L) as (-> & _ & ->). split; [auto|].
  eapply F2_impl; [|exact F]. intros a b R. eapply nrep_lazy; eauto.
Qed.
Lemma at_elems_next h l i x vs : at_elems h l i (x :: vs) ->
  exists p, nth_error (c_arr (h l)) i = Some p /\ nrep h p x /\ at_elems h l (S i) vs.
Proof.
  intros (D & F). inversion F as [|a b la lb R F' Q1 Q2]; subst. symmetry in Q1.
  apply skipn_hd in Q1 as [N Q]. exists a. split; [auto|split; [auto|]]. unfold at_elems. rewrite Q. auto.
Qed.
Lemma decides_elems ka : forall kb, Forall2 decides ka kb ->
  exists n0, forall fuel s l m i, (n0 <= fuel)%nat -> slots64 (hp s) ->
    at_elems (hp s) l i ka -> at_elems (hp s) m i kb ->
    answers (equal_arr E fuel s l m i) s (Forall2 same ka kb).
Proof.
  induction ka as [|x ka IH]; intros kb F; inversion F as [|? y ? kb' Hd Ht]; subst.
  - exists 1%nat. intros [|f] s l m i Hf HS (_ & A) _; [lia|]. inversion A as [Q|]; subst.
    rewrite equal_arr_S, (skipn_nil_nth _ _ (eq_sym Q)). exists true, s. split; [auto|split; [apply lazy_refl|]].
    split; [constructor|auto].
  - destruct Hd as (n1 & Hd). destruct (IH kb' Ht) as (n2 & Hn). exists (S (n1 + n2)).
    intros [|f] s l m i Hf HS A B; [lia|].
    destruct (at_elems_next _ _ _ _ _ A) as (p & NA & RA & A').
    destruct (at_elems_next _ _ _ _ _ B) as (q & NB & RB & B').
    rewrite equal_arr_S, NA, NB.
    destruct (Hd f s p q ltac:(lia) HS RA RB) as (b & s1 & Q1 & L1 & V1). rewrite Q1. cbn [bind].
    destruct b.
    2:{ exists false, s1. split; [auto|split; [auto|]]. split; [discriminate|]. intros C.
        inversion C as [|? ? ? ? W _]; subst. apply V1 in W. discriminate. }
    destruct (Hn f s1 l m (S i) ltac:(lia) (slots_lazy _ _ L1 HS) (at_elems_lazy _ _ _ _ _ L1 A') (at_elems_lazy _ _ _ _ _ L1 B'))
      as (b & s2 & Q2 & L2 & V2).
    exists b, s2. split; [exact Q2|split; [eapply lazy_trans; eauto|]]. rewrite V2. split.
    + intros W. constructor; auto. apply V1. reflexivity.
    + intros W. inversion W; auto.
Qed.

(** Unescaping both cells of an object comparison. *)
Lemma unescaped_pair s l m : c_dt (hp s l) = TObject -> c_dt (hp s m) = TObject ->
  let s1 := set_cell s l (unescape_cell E (hp s l)) in
  let s2 := set_cell s1 m (unescape_cell E (hp s1 m)) in
  lazy (hp s) (hp s2) /\ hp s2 l = unescape_cell E (hp s l) /\ hp s2 m = unescape_cell E (hp s m).
Proof.
  intros D D' s1 s2. pose proof (lazy_one s l D) as L1. fold s1 in L1.
  destruct (lazy_dt _ _ m L1) as (D1 & _). pose proof (lazy_one s1 m ltac:(congruence)) as L2. fold s2 in L2.
  split; [eapply lazy_trans; eauto|]. unfold s2, s1. cbn [set_cell hp].
  destruct (Nat.eq_dec l m) as [->|N].
  - rewrite !upd_same. rewrite unescape_twice. auto.
  - rewrite (upd_other _ m _ l) by auto. rewrite !upd_same. rewrite upd_other by auto. auto.
Qed.
Lemma at_keys_start h h' l u kvs : lazy h h' -> c_dt (h l) = TObject -> h' l = unescape_cell E (h l) ->
  Forall2 (fun a b => ukey (c_unesc (h l)) (fst a) = ukey u (fst b) /\ nrep h (snd a) (snd b)) (c_kvs (h l)) kvs ->
  at_keys h' l 0 (map (fun kv => (ukey u (fst kv), snd kv)) kvs).
Proof.
  intros L D Q F. unfold at_keys. rewrite Q. split; [auto|split; [auto|]]. cbn [skipn unescape_cell w_obj c_kvs].
  rewrite ukeys. induction F as [|a b la lb [K R] F IH]; cbn [map]; constructor; auto. cbn [fst snd]. split; [auto|].
  eapply nrep_lazy; eauto.
Qed.

Definition tag (v : value) : vtype :=
  match v with
  | VObject _ _ => TObject | VArray _ => TArray | VString _ => TString | VRawString _ => TRaw | VInt _ _ => TInt
  | VFloat _ => TFloat | VDouble _ => TDouble | VDateTime _ => TDateTime | VBinary _ _ => TBinary
  | VExBinary _ _ => TExBinary | VTrue => TTrue | VFalse => TFalse | VNan => TNan | VInf => TInf
  | VNull | VNilP => TNull
  end.
Lemma nrep_tag h p v : nrep h p v -> (v = VNilP /\ p = None) \/ (v <> VNilP /\ exists l, p = Some l /\ c_dt (h l) = tag v).
Proof.
  intros (v' & R & Q). inversion R; subst; destruct v; cbn [norm] in Q; try discriminate; auto;
    right; (split; [discriminate|]); exists l; auto.
Qed.
Lemma same_tag v w : same v w -> (v = VNilP <-> w = VNilP) /\
  (tag v = tag w \/ (numeric (tag v) = true /\ numeric (tag w) = true)).
Proof. intros C. inversion C; subst; (split; [split; congruence|auto]). Qed.
Lemma vt_eqb_eq a b : vt_eqb a b = true <-> a = b.
Proof. destruct a, b; cbn; split; congruence. Qed.

Lemma slot_answer s (a b : Z) (X : Prop) : (a = b <-> X) -> answers (Ok (a =? b, s)) s X.
Proof. intros H. exists (a =? b), s. split; [auto|split; [apply lazy_refl|]]. rewrite Z.eqb_eq. exact H. Qed.
Lemma bytes_answer s a b (X : Prop) : (a = b <-> X) -> answers (Ok (beq a b, s)) s X.
Proof. intros H. exists (beq a b), s. split; [auto|split; [apply lazy_refl|]]. rewrite beq_eq. exact H. Qed.
Lemma yes_answer s (X : Prop) : X -> answers (Ok (true, s)) s X.
Proof. intros H. exists true, s. split; [auto|split; [apply lazy_refl|]]. tauto. Qed.
Lemma no_answer s (X : Prop) : ~ X -> answers (Ok (false, s)) s X.
Proof. intros H. exists false, s. split; [auto|split; [apply lazy_refl|]]. split; [discriminate|tauto]. Qed.

Lemma Forall2_weave {A B} (P : A -> B -> Prop) (Q : A -> Prop) (R T : A -> B -> Prop) a b :
  Forall Q a -> Forall2 P a b -> Forall2 R a b -> (forall x y, Q x -> P x y -> R x y -> T x y) -> Forall2 T a b.
Proof.
  intros FQ FP FR H. induction FP; inversion FQ; inversion FR; subst; constructor; auto.
Qed.
Lemma Forall2_right {A B} (P : B -> Prop) (a : list A) b :
  List.length a = List.length b -> Forall P b -> Forall2 (fun _ y => P y) a b.
Proof. revert b; induction a as [|x a IH]; intros [|y b] L F; try discriminate; constructor; inversion F; auto. Qed.

Lemma same_keys u u' ka : forall kb,
  Forall2 (fun x y => fst x = fst y /\ same (snd x) (snd y))
    (map (fun kv => (ukey u (fst kv), snd kv)) ka) (map (fun kv => (ukey u' (fst kv), snd kv)) kb) <->
  Forall2 (fun x y => ukey u (fst x) = ukey u' (fst y) /\ same (snd x) (snd y)) ka kb.
Proof.
  induction ka as [|x ka IH]; intros [|y kb]; cbn [map]; split; intros F; inversion F; subst; constructor; auto;
    apply IH; auto.
Qed.

Theorem equal_decides v : forall w, plain v -> plain w -> arrays_match v w -> decides v w.
Proof.
  induction v using value_ind'; intros w PV PW AM.
  (* objects *)
  2:{ destruct w as [|u' kb| | | | | | | | | | | | | |];
      try (exists 1%nat; intros [|f] st0 p q Hf HS RV RW; [lia|];
        destruct (nrep_tag _ _ _ RV) as [[C _]|[_ (x & -> & D)]]; [discriminate|];
        destruct (nrep_tag _ _ _ RW) as [[C ->]|[_ (y & -> & D')]]; try discriminate; rewrite Equal_S; cbv zeta;
        try rewrite D; try rewrite D'; apply no_answer; intros C'; inversion C'; fail).
    destruct (Nat.eq_dec (List.length kvs) (List.length kb)) as [Len|Len].
    2:{ exists 1%nat. intros [|f] s p q Hf HS RV RW; [lia|].
        apply nrep_obj_inv in RV as (l & -> & D & F). apply nrep_obj_inv in RW as (m & -> & D' & F').
        rewrite Equal_S. cbv zeta. rewrite D, D'. cbn [vt_eqb negb].
        replace (zlen (c_kvs (hp s l)) =? zlen (c_kvs (hp s m))) with false.
        2:{ symmetry. apply Z.eqb_neq. unfold zlen. rewrite (F2_length _ _ _ F), (F2_length _ _ _ F'). lia. }
        apply no_answer. intros C. inversion C as [|? ? ? ? FF| | | | | | | | | | | | | |]; subst. apply Len. eapply F2_length; eauto. }
    rewrite plain_obj in PV, PW. rewrite match_obj in AM by auto.
    assert (FD : Forall2 (fun x y => decides (snd x) (snd y))
        (map (fun kv => (ukey u (fst kv), snd kv)) kvs) (map (fun kv => (ukey u' (fst kv), snd kv)) kb)).
    { clear Len. revert H PV PW. induction AM as [|x y ka kb' A AM IH]; intros H PV PW; cbn [map]; constructor;
        inversion H; inversion PV; inversion PW; subst; cbn [snd] in *; auto. }
    destruct (decides_kvs _ _ FD) as (n0 & Hn). exists (S n0). intros [|f] s p q Hf HS RV RW; [lia|].
    apply nrep_obj_inv in RV as (l & -> & D & F). apply nrep_obj_inv in RW as (m & -> & D' & F').
    rewrite Equal_S. cbv zeta. rewrite D, D'. cbn [vt_eqb negb].
    replace (zlen (c_kvs (hp s l)) =? zlen (c_kvs (hp s m))) with true.
    2:{ symmetry. apply Z.eqb_eq. unfold zlen. rewrite (F2_length _ _ _ F), (F2_length _ _ _ F'). lia. }
    destruct (unescaped_pair s l m D D') as (L2 & U1 & U2).
    set (s2 := set_cell _ m _) in *.
    destruct (Hn f s2 l m 0%nat ltac:(lia) (slots_lazy _ _ L2 HS)
       (at_keys_start _ _ _ _ _ L2 D U1 F) (at_keys_start _ _ _ _ _ L2 D' U2 F')) as (b & s' & Q & L3 & V3).
    cbn [negb]. exists b, s'. split; [exact Q|split; [eapply lazy_trans; eauto|]]. rewrite V3, same_keys.
    split; intros W; [constructor; auto|inversion W; auto]. }
  (* arrays *)
  2:{ destruct w as [| |kb | | | | | | | | | | | | |];
      try (exists 1%nat; intros [|f] st0 p q Hf HS RV RW; [lia|];
        destruct (nrep_tag _ _ _ RV) as [[C _]|[_ (x & -> & D)]]; [discriminate|];
        destruct (nrep_tag _ _ _ RW) as [[C ->]|[_ (y & -> & D')]]; try discriminate; rewrite Equal_S; cbv zeta;
        try rewrite D; try rewrite D'; apply no_answer; intros C'; inversion C'; fail).
    rewrite plain_arr in PV, PW. rewrite match_arr in AM.
    assert (FD : Forall2 decides l kb).
    { revert H PV PW. induction AM as [|x y ka kb' A AM IH]; intros H PV PW; constructor;
        inversion H; inversion PV; inversion PW; subst; auto. }
    destruct (decides_elems _ _ FD) as (n0 & Hn). exists (S n0). intros [|f] s p q Hf HS RV RW; [lia|].
    apply nrep_arr_inv in RV as (l0 & -> & D & F). apply nrep_arr_inv in RW as (m & -> & D' & F').
    rewrite Equal_S. cbv zeta. rewrite D, D'. cbn [vt_eqb negb].
    destruct (Hn f s l0 m 0%nat ltac:(lia) HS (conj D F) (conj D' F')) as (b & s' & Q & L3 & V3).
    exists b, s'. split; [exact Q|split; [auto|]]. rewrite V3. split; intros W; [constructor; auto|inversion W; auto]. }
  all: try contradiction PV; destruct w; try contradiction PW.
  all: exists 1%nat; intros [|f] st0 p q Hf HS RV RW; [lia|]; rewrite Equal_S; cbv zeta.
  all: destruct (nrep_tag _ _ _ RV) as [[C ->]|[NV (x & -> & D)]]; try discriminate; try (now destruct NV).
  all: destruct (nrep_tag _ _ _ RW) as [[C' ->]|[NW (y & -> & D')]]; try discriminate; try (now destruct NW).
  all: try (apply yes_answer; constructor; fail).
  all: try (apply no_answer; intros C1; inversion C1; fail).
  all: cbn [tag] in D, D'; rewrite D, D'; cbn [vt_eqb vt_code Z.eqb negb andb orb numeric].
  all: try (apply yes_answer; constructor; fail).
  all: try (apply no_answer; intros C1; inversion C1; fail).
  all: apply nrep_scalar in RV; apply nrep_scalar in RW; try contradiction; inversion RV; inversion RW; subst; try congruence.
  - apply bytes_answer. split; [intros ->; constructor|intros C1; inversion C1; congruence].
  - apply slot_answer. split; [intros ->; constructor|intros C1; inversion C1; apply i64_inj; auto].
  - change (answers (Ok (x_f64_eq E (Double E (hp st0 x)) (Double E (hp st0 y)), st0)) st0
      (same (VInt (c_ext (hp st0 x)) (to_i64 (c_sv (hp st0 x)))) (VDouble (c_sv (hp st0 y))))).
    unfold Double. rewrite D, D'. eexists _, st0. split; [reflexivity|split; [apply lazy_refl|]].
    split; [intros W; constructor; exact W|intros C1; inversion C1; subst; assumption].
  - change (answers (Ok (x_f64_eq E (Double E (hp st0 x)) (Double E (hp st0 y)), st0)) st0
      (same (VDouble (c_sv (hp st0 x))) (VInt (c_ext (hp st0 y)) (to_i64 (c_sv (hp st0 y)))))).
    unfold Double. rewrite D, D'. eexists _, st0. split; [reflexivity|split; [apply lazy_refl|]].
    split; [intros W; constructor; exact W|intros C1; inversion C1; subst; assumption].
  - apply slot_answer. split; [intros ->; constructor|intros C1; inversion C1; congruence].
  - apply slot_answer. split; [intros ->; constructor|intros C1; inversion C1; congruence].
  - apply bytes_answer. split; [intros ->; constructor|intros C1; inversion C1; congruence].
  - apply bytes_answer. split; [intros ->; constructor|intros C1; inversion C1; congruence].
Qed.

(** ** Reflexivity, on every tree *)
Definition reflects (v : value) : Prop :=
  exists n0, forall fuel s p, (n0 <= fuel)%nat -> nrep (hp s) p v ->
    exists s', Equal E fuel s p p = Ok (true, s') /\ lazy (hp s) (hp s').
Lemma reflects_kvs ka : Forall (fun x => reflects (snd x)) ka ->
  exists n0, forall fuel s l i, (n0 <= fuel)%nat -> at_keys (hp s) l i ka ->
    exists s', equal_kvs E fuel s l l i = Ok (true, s') /\ lazy (hp s) (hp s').
Proof.
  induction ka as [|x ka IH]; intros F; inversion F as [|? ? Hd Ht]; subst.
  - exists 1%nat. intros [|f] s l i Hf (_ & _ & A); [lia|]. inversion A as [Q|]; subst.
    rewrite equal_kvs_S, (skipn_nil_nth _ _ (eq_sym Q)). exists s. split; [auto|apply lazy_refl].
  - destruct Hd as (n1 & Hd). destruct (IH Ht) as (n2 & Hn). exists (S (n1 + n2)).
    intros [|f] s l i Hf A; [lia|]. destruct (at_keys_next _ _ _ _ _ A) as (p & NA & RA & A').
    rewrite equal_kvs_S, NA, beq_refl. cbn [negb].
    destruct (Hd f s p ltac:(lia) RA) as (s1 & Q1 & L1). rewrite Q1. cbn [bind].
    destruct (Hn f s1 l (S i) ltac:(lia) (at_keys_lazy _ _ _ _ _ L1 A')) as (s2 & Q2 & L2).
    exists s2. split; [exact Q2|eapply lazy_trans; eauto].
Qed.
Lemma reflects_elems ka : Forall reflects ka ->
  exists n0, forall fuel s l i, (n0 <= fuel)%nat -> at_elems (hp s) l i ka ->
    exists s', equal_arr E fuel s l l i = Ok (true, s') /\ lazy (hp s) (hp s').
Proof.
  induction ka as [|x ka IH]; intros F; inversion F as [|? ? Hd Ht]; subst.
  - exists 1%nat. intros [|f] s l i Hf (_ & A); [lia|]. inversion A as [Q|]; subst.
    rewrite equal_arr_S, (skipn_nil_nth _ _ (eq_sym Q)). exists s. split; [auto|apply lazy_refl].
  - destruct Hd as (n1 & Hd). destruct (IH Ht) as (n2 & Hn). exists (S (n1 + n2)).
    intros [|f] s l i Hf A; [lia|]. destruct (at_elems_next _ _ _ _ _ A) as (p & NA & RA & A').
    rewrite equal_arr_S, NA.
    destruct (Hd f s p ltac:(lia) RA) as (s1 & Q1 & L1). rewrite Q1. cbn [bind].
    destruct (Hn f s1 l (S i) ltac:(lia) (at_elems_lazy _ _ _ _ _ L1 A')) as (s2 & Q2 & L2).
    exists s2. split; [exact Q2|eapply lazy_trans; eauto].
Qed.
Theorem equal_reflects v : reflects v.
Proof.
  induction v using value_ind'.
  2:{ assert (FD : Forall (fun x => reflects (snd x)) (map (fun kv => (ukey u (fst kv), snd kv)) kvs)).
    { induction H; cbn [map]; constructor; auto. }
    destruct (reflects_kvs _ FD) as (n0 & Hn). exists (S n0). intros [|f] s p Hf RV; [lia|].
    apply nrep_obj_inv in RV as (l & -> & D & F).
    rewrite Equal_S. cbv zeta. rewrite D. cbn [vt_eqb negb]. rewrite Z.eqb_refl. cbn [negb].
    destruct (unescaped_pair s l l D D) as (L2 & U1 & U2).
    set (s2 := set_cell _ l (unescape_cell E (hp (set_cell s l _) l))) in *.
    destruct (Hn f s2 l 0%nat ltac:(lia) (at_keys_start _ _ _ _ _ L2 D U1 F)) as (s' & Q & L3).
    exists s'. split; [exact Q|eapply lazy_trans; eauto]. }
  2:{ destruct (reflects_elems _ H) as (n0 & Hn). exists (S n0). intros [|f] s p Hf RV; [lia|].
    apply nrep_arr_inv in RV as (l0 & -> & D & F).
    rewrite Equal_S. cbv zeta. rewrite D. cbn [vt_eqb negb].
    exact (Hn f s l0 0%nat ltac:(lia) (conj D F)). }
  all: exists 1%nat; intros [|f] st0 p Hf RV; [lia|]; rewrite Equal_S; cbv zeta;
    destruct (nrep_tag _ _ _ RV) as [[C ->]|[NV (x & -> & D)]]; try discriminate; try (now destruct NV);
    try (rewrite D; cbn [tag]; change (negb (vt_eqb ?a ?a)) with false; cbv iota);
    rewrite ?beq_refl, ?Z.eqb_refl; exists st0; (split; [reflexivity|apply lazy_refl]).
Qed.

(** ** Symmetry of the specification *)
Lemma same_sym (FS : forall a b, x_f64_eq E a b = x_f64_eq E b a) v : forall w, same v w -> same w v.
Proof.
  induction v using value_ind'; intros w C; inversion C as [|? ? ka kb F|? ? F| | | | | | | | | | | | | ]; subst; try (constructor; auto; fail).
  - constructor. clear C. induction F as [|x y ka kb [K R] F IH]; constructor; inversion H; subst; auto.
  - constructor. clear C. induction F as [|x y ka kb R F IH]; constructor; inversion H; subst; auto.
  - constructor. rewrite FS. auto.
  - constructor. rewrite FS. auto.
Qed.
End EqualProof.
