(** Proofs about [Visit]. *)
From Verif Require Import Base Values Tactics HeapModel HeapSpec HeapBase HeapConf HeapGet ApiSpec HeapMap HeapCalls
  HeapObj HeapArr VisitModel.

Section Thms.
Context {A : Type}.
Variable f : visitor A.

(** The callback is called on the listed entries, one after the other; [b]: it answered true every
    time, otherwise it answered false to the last one. *)
Inductive called : A -> st -> list (bytes * ptr) -> bool -> A -> st -> Prop :=
| called_all a s : called a s [] true a s
| called_stop a s k p a1 s1 : f a s k p = Ok (false, a1, s1) -> called a s [(k, p)] false a1 s1
| called_next a s k p a1 s1 r b a2 s2 : f a s k p = Ok (true, a1, s1) -> called a1 s1 r b a2 s2 ->
    called a s ((k, p) :: r) b a2 s2.

(** The entries as they are stored. *)
Definition stored_entries (s : st) (l : nat) : list (bytes * ptr) :=
  match c_dt (hp s l) with
  | TObject => c_kvs (hp s l)
  | TArray => map (fun p => ([], p)) (c_arr (hp s l))
  | _ => []
  end.

(** In states that satisfy [I], the callback answers when given one of the entries of [l], and afterwards
    [I] holds again; [I] pins the entries of [l] down. *)
Definition tame (I : st -> Prop) (l : nat) (kvs : list (bytes * ptr)) (arr : list ptr) : Prop :=
  (forall s, I s -> c_kvs (hp s l) = kvs /\ c_arr (hp s l) = arr) /\
  forall a s k p, I s -> In (k, p) kvs \/ k = [] /\ In p arr -> exists b a1 s1, f a s k p = Ok (b, a1, s1) /\ I s1.

Lemma skipn_nth {B} (l : list B) i : skipn i l = match nth_error l i with Some x => x :: skipn (S i) l | None => [] end.
Proof.
  revert i; induction l as [|x l IH]; intros [|i]; auto.
  cbn [nth_error skipn]. rewrite IH. destruct (nth_error l i); reflexivity.
Qed.

Lemma visit_obj_order I l kvs arr : tame I l kvs arr -> forall n i a s, I s -> (length (skipn i kvs) < n)%nat ->
  exists a' s' b shown rest, visit_obj f n a s l i = Ok (a', s') /\ skipn i kvs = shown ++ rest /\
    called a s shown b a' s' /\ (b = true -> rest = []).
Proof.
  intros [PIN TM]. induction n as [|n IH]; intros i a s HI L; [lia|]. cbn [visit_obj].
  rewrite (proj1 (PIN s HI)).
  rewrite (skipn_nth kvs i) in *. destruct (nth_error kvs i) as [[k p]|] eqn:Q.
  - destruct (TM a s k p HI (or_introl (nth_error_In _ _ Q))) as (b & a1 & s1 & Q1 & HI1). rewrite Q1. cbn [bind].
    destruct b.
    + destruct (IH (S i) a1 s1 HI1) as (a' & s' & b & sh & rest & R1 & R2 & R3 & R4).
      { cbn [length] in L. lia. }
      exists a', s', b, ((k, p) :: sh), rest.
      split; [exact R1|]. split; [rewrite R2; reflexivity|]. split; [|exact R4]. econstructor; eauto.
    + exists a1, s1, false, [(k, p)], (skipn (S i) kvs). split; [reflexivity|]. split; [reflexivity|].
      split; [constructor; exact Q1|discriminate].
  - exists a, s, true, [], []. repeat split. constructor.
Qed.
Lemma visit_arr_order I l kvs arr : tame I l kvs arr -> forall n i a s, I s -> (length (skipn i arr) < n)%nat ->
  exists a' s' b shown rest, visit_arr f n a s l i = Ok (a', s') /\ skipn i arr = shown ++ rest /\
    called a s (map (fun p => ([], p)) shown) b a' s' /\ (b = true -> rest = []).
Proof.
  intros [PIN TM]. induction n as [|n IH]; intros i a s HI L; [lia|]. cbn [visit_arr].
  rewrite (proj2 (PIN s HI)).
  rewrite (skipn_nth arr i) in *. destruct (nth_error arr i) as [p|] eqn:Q.
  - destruct (TM a s [] p HI (or_intror (conj eq_refl (nth_error_In _ _ Q)))) as (b & a1 & s1 & Q1 & HI1). rewrite Q1. cbn [bind].
    destruct b.
    + destruct (IH (S i) a1 s1 HI1) as (a' & s' & b & sh & rest & R1 & R2 & R3 & R4).
      { cbn [length] in L. lia. }
      exists a', s', b, (p :: sh), rest.
      split; [exact R1|]. split; [rewrite R2; reflexivity|]. split; [|exact R4]. econstructor; eauto.
    + exists a1, s1, false, [p], (skipn (S i) arr). split; [reflexivity|]. split; [reflexivity|].
      split; [constructor; exact Q1|discriminate].
  - exists a, s, true, [], []. repeat split. constructor.
Qed.
Lemma visit_order I l a s fuel : tame I l (c_kvs (hp s l)) (c_arr (hp s l)) -> I s -> (length (stored_entries s l) < fuel)%nat ->
  exists a' s' b shown rest, Visit f fuel a s l = Ok (a', s') /\ stored_entries s l = shown ++ rest /\
    called a s shown b a' s' /\ (b = true -> rest = []).
Proof.
  intros TM HI L. unfold Visit, stored_entries in *.
  assert (Z : exists a' s' b shown rest, Ok (a, s) = Ok (a', s') /\ ([] : list (bytes * ptr)) = shown ++ rest /\
    called a s shown b a' s' /\ (b = true -> rest = [])).
  { exists a, s, true, [], []. repeat split. constructor. }
  destruct (c_dt (hp s l)); try exact Z.
  - exact (visit_obj_order I l _ _ TM fuel 0 a s HI L).
  - rewrite map_length in L. destruct (visit_arr_order I l _ _ TM fuel 0 a s HI L) as (a' & s' & b & sh & rest & R1 & R2 & R3 & R4).
    exists a', s', b, (map (fun p => ([], p)) sh), (map (fun p => ([], p)) rest). cbn [skipn] in R2.
    split; [exact R1|]. split; [rewrite R2; apply map_app|]. split; [exact R3|]. intros B. rewrite (R4 B). reflexivity.
Qed.
End Thms.

(** ** Callbacks that change the container *)
Section Change.
Variable E : env.
Variable EO : env_ok E.
Notation same := (key_match E).

(** Removes every entry it is shown. *)
Definition remover (l : nat) : visitor unit := fun _ s k _ => Ok (true, tt, RemoveKey E s l k).
(** The entries at the even positions, counted from 0. *)
Fixpoint every_other {B} (l : list B) : list B :=
  match l with
  | x :: _ :: r => x :: every_other r
  | l => l
  end.

Lemma remove_plain s l a k p b : c_dt (hp s l) = TObject -> c_unesc (hp s l) = true ->
  c_kvs (hp s l) = a ++ (k, p) :: b -> distinct_keys same (c_kvs (hp s l)) ->
  let s' := RemoveKey E s l k in
  c_dt (hp s' l) = TObject /\ c_unesc (hp s' l) = true /\ c_kvs (hp s' l) = a ++ b /\ (forall x, x <> l -> hp s' x = hp s x).
Proof.
  intros T U K D. unfold RemoveKey. rewrite T. unfold obj_index, index_by_name. rewrite U. cbn [negb andb unescape_keys].
  assert (F : find_key E (c_kvs (hp s l)) k = Some (length a)).
  { eapply (find_key_uniq E EO); [exact D|rewrite K, nth_error_app2, Nat.sub_diag by lia; reflexivity|apply (HeapMap.same_refl E)]. }
  rewrite F. cbn zeta. cbn [set_cell hp]. rewrite !upd_same. unfold remove_kv. cbn [w_obj c_dt c_unesc c_kvs].
  split; [exact T|]. split; [reflexivity|]. split.
  - rewrite K. clear. induction a as [|x a IH]; cbn [app length remove_at]; [reflexivity|]. f_equal. exact IH.
  - intros x NE. rewrite !upd_other by auto. reflexivity.
Qed.
Lemma distinct_drop {B} (a : list (bytes * B)) x b : distinct_keys same (a ++ x :: b) -> distinct_keys same (a ++ b).
Proof.
  unfold distinct_keys. induction a as [|y a IH]; cbn [app]; intros D; inversion D as [|? ? F D']; subst; [exact D'|].
  constructor; [|exact (IH D')]. apply Forall_app in F as [F1 F2]. inversion F2; subst. apply Forall_app. auto.
Qed.

Lemma remover_loop l : forall n rest kept s, (length rest <= n)%nat -> c_dt (hp s l) = TObject -> c_unesc (hp s l) = true ->
  c_kvs (hp s l) = kept ++ rest -> distinct_keys same (kept ++ rest) -> forall fuel, (length rest < fuel)%nat ->
  exists s', visit_obj (remover l) fuel tt s l (length kept) = Ok (tt, s') /\
    c_dt (hp s' l) = TObject /\ c_kvs (hp s' l) = kept ++ every_other (tl rest) /\ (forall x, x <> l -> hp s' x = hp s x).
Proof.
  induction n as [|n IH]; intros rest kept s LN T U K D fuel F; (destruct fuel as [|fuel]; [lia|]); cbn [visit_obj]; rewrite K;
    (destruct rest as [|[k p] rest]; [rewrite app_nil_r, (proj2 (nth_error_None kept (length kept))) by lia; exists s; cbn; rewrite app_nil_r in *; auto|]).
  { cbn [length] in LN. lia. }
  rewrite nth_error_app2, Nat.sub_diag by lia. cbn [nth_error remover bind].
  rewrite <- K in D.
  destruct (remove_plain s l kept k p rest T U K D) as (T1 & U1 & K1 & O1).
  rewrite K in D. set (s1 := RemoveKey E s l k) in *. clearbody s1. cbn [length] in *.
  destruct rest as [|y rest].
  - destruct fuel as [|fuel]; [cbn in F; lia|]. cbn [visit_obj]. rewrite K1, app_nil_r.
    rewrite (proj2 (nth_error_None kept (S (length kept)))) by lia. exists s1. cbn [tl every_other]. rewrite app_nil_r in *. auto.
  - destruct (IH rest (kept ++ [y]) s1) with (fuel := fuel) as (s' & R1 & R2 & R3 & R4); auto.
    + cbn [length] in LN. lia.
    + rewrite <- app_assoc. exact K1.
    + rewrite <- app_assoc. eapply distinct_drop; exact D.
    + cbn [length] in F. lia.
    + rewrite app_length in R1. cbn [length] in R1. rewrite Nat.add_1_r in R1.
      exists s'. split; [exact R1|]. split; [exact R2|]. split.
      * rewrite R3, <- app_assoc. cbn [app tl]. destruct rest as [|z rest]; reflexivity.
      * intros x NE. rewrite R4 by auto. auto.
Qed.

(** Removing what [Visit] shows leaves every second entry. *)
Lemma visit_remover s l fuel : c_dt (hp s l) = TObject -> c_unesc (hp s l) = true -> distinct_keys same (c_kvs (hp s l)) ->
  (length (c_kvs (hp s l)) < fuel)%nat ->
  exists s', Visit (remover l) fuel tt s l = Ok (tt, s') /\
    c_dt (hp s' l) = TObject /\ c_kvs (hp s' l) = every_other (tl (c_kvs (hp s l))) /\ (forall x, x <> l -> hp s' x = hp s x).
Proof.
  intros T U D F. unfold Visit. rewrite T.
  exact (remover_loop l (length (c_kvs (hp s l))) (c_kvs (hp s l)) [] s (le_n _) T U eq_refl D fuel F).
Qed.

(** Appends an element at every call. *)
Definition appender (l : nat) (t : vtype) : visitor unit := fun _ s _ _ => Ok (true, tt, snd (Append s l t)).
Lemma append_len s l t : (l < nx s)%nat -> (5 <= l)%nat -> c_dt (hp s l) = TArray ->
  let s' := snd (Append s l t) in
  (l < nx s')%nat /\ c_dt (hp s' l) = TArray /\ length (c_arr (hp s' l)) = S (length (c_arr (hp s l))).
Proof.
  intros L L5 T. unfold Append, InsertValue. rewrite T. change (vt_eqb TArray TArray) with true. cbv iota zeta.
  assert (N : exists r s2, NewValue s t = (r, s2) /\ (nx s <= nx s2)%nat /\ hp s2 l = hp s l).
  { unfold NewValue. destruct t; try (eexists _, s; split; [reflexivity|split; [lia|reflexivity]]);
      eexists _, _; (split; [reflexivity|]); cbn [nx hp]; (split; [lia|]); rewrite upd_other by lia; reflexivity. }
  destruct N as (r & s2 & -> & N1 & N2). cbn [snd]. cbn [set_cell hp nx]. rewrite upd_same, N2.
  cbn [w_arr c_dt c_arr]. split; [lia|]. split; [exact T|].
  generalize 2147483647. intros big. generalize (if big <? 0 then 0 else big). clear big. intros big.
  destruct (big <? zlen _).
  - rewrite app_length. cbn [length].
    rewrite Nat.add_succ_r, <- app_length, firstn_skipn. reflexivity.
  - rewrite app_length. cbn [length]. lia.
Qed.
Lemma visit_appender l t : (5 <= l)%nat -> forall fuel s i, (l < nx s)%nat -> c_dt (hp s l) = TArray ->
  (i < length (c_arr (hp s l)))%nat -> visit_arr (appender l t) fuel tt s l i = OutOfFuel.
Proof.
  intros L5. induction fuel as [|n IH]; intros s i L T I; [reflexivity|]. cbn [visit_arr].
  destruct (nth_error (c_arr (hp s l)) i) as [p|] eqn:Q; [|apply nth_error_None in Q; lia].
  cbn [appender bind]. destruct (append_len s l t L L5 T) as (A1 & A2 & A3). apply IH; auto. lia.
Qed.
End Change.
