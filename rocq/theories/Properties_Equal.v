(** Property C36: [Equal].  Each theorem is followed by what it assumes and by a concrete case. *)
From Coq Require Import String.
From Verif Require Import Base Values Tactics Env0 HeapModel HeapSpec HeapBase HeapConf HeapGet
  ApiSpec HeapMap HeapCalls HeapObj HeapArr HeapForce HeapClone HeapEqual Properties_Map Properties_Heap Properties_Clone.

(** Every value equals itself, whatever it contains; the call only unescapes keys. *)
Theorem C36_reflexive : forall E v, exists n0, forall fuel s p, (n0 <= fuel)%nat -> rep (hp s) p v ->
  exists s', Equal E fuel s p p = Ok (true, s') /\
    forall x, hp s' x = hp s x \/ (c_dt (hp s x) = TObject /\ hp s' x = unescape_cell E (hp s x)).
Proof.
  intros E v. destruct (equal_reflects E v) as (n0 & H). exists n0. intros fuel s p Hf R.
  apply (H fuel s p Hf). exists v. auto.
Qed.
Print Assumptions C36_reflexive.

(** [Equal] answers, and answers true exactly for values of the same content. *)
Theorem C36_exact : forall E v w, plain v -> plain w -> arrays_match v w ->
  exists n0, forall fuel s p q, (n0 <= fuel)%nat -> slots64 (hp s) -> rep (hp s) p v -> rep (hp s) q w ->
    exists b s', Equal E fuel s p q = Ok (b, s') /\ (b = true <-> same E v w) /\
      forall x, hp s' x = hp s x \/ (c_dt (hp s x) = TObject /\ hp s' x = unescape_cell E (hp s x)).
Proof.
  intros E v w PV PW A. destruct (equal_decides E v w PV PW A) as (n0 & H). exists n0. intros fuel s p q Hf S0 R R'.
  destruct (H fuel s p q Hf S0 (ex_intro _ v (conj R eq_refl)) (ex_intro _ w (conj R' eq_refl))) as (b & s' & Q & L & V).
  exists b, s'. split; [exact Q|split; [exact V|exact L]].
Qed.
Print Assumptions C36_exact.

(** Swapping the arguments does not change the answer (given that [==] on float64 is symmetric). *)
Lemma match_sym v : forall w, arrays_match v w -> arrays_match w v.
Proof.
  induction v using value_ind'; intros w; destruct w as [|u' kb|kb| | | | | | | | | | | | |]; auto.
  - cbn [arrays_match]. revert kb; induction kvs as [|x ka IH]; intros [|y kb]; auto. inversion H; subst. intros [A B].
    split; [auto|]. apply IH; auto.
  - rewrite !match_arr. intros F. induction F as [|x y ka kb A F IH]; constructor; inversion H; subst; auto.
Qed.
Theorem C36_symmetric : forall E v w, (forall a b, x_f64_eq E a b = x_f64_eq E b a) ->
  plain v -> plain w -> arrays_match v w ->
  exists n0, forall fuel s p q, (n0 <= fuel)%nat -> slots64 (hp s) -> rep (hp s) p v -> rep (hp s) q w ->
    exists b s1 s2, Equal E fuel s p q = Ok (b, s1) /\ Equal E fuel s q p = Ok (b, s2).
Proof.
  intros E v w FS PV PW A. destruct (C36_exact E v w PV PW A) as (n1 & H1).
  destruct (C36_exact E w v PW PV (match_sym v w A)) as (n2 & H2).
  exists (n1 + n2)%nat. intros fuel s p q Hf S0 R R'.
  destruct (H1 fuel s p q ltac:(lia) S0 R R') as (b & s1 & Q1 & V1 & _).
  destruct (H2 fuel s q p ltac:(lia) S0 R' R) as (b' & s2 & Q2 & V2 & _).
  exists b, s1, s2. split; [exact Q1|]. rewrite Q2. do 2 f_equal.
  assert (X : b = true <-> b' = true).
  { rewrite V1, V2. split; apply same_sym; exact FS. }
  destruct X as [X1 X2], b, b'; try reflexivity; [discriminate (X1 eq_refl)|discriminate (X2 eq_refl)].
Qed.
Print Assumptions C36_symmetric.

(** Non-trivial values: the nested parsed object against a copy of it with its key already unescaped,
    and against one whose inner boolean differs. *)
Definition pair_of (b : nat) : st :=
  mkSt (upd (upd (upd (hp nested) 8 (mkCell TObject 0 true [(bs "a/", Some 9%nat)] [] None 0 [] [] []))
    9 (mkCell TArray 0 false [] [] None 0 [] [] [Some b; Some 10%nat]))
    10 (mkCell TObject 0 true [] [] None 0 [] [] [])) 11 (cs st0) (nc st0) (pl st0).
Definition other_value (b : value) : value := VObject true [(bs "a/", VArray [b; VObject true []])].
Example C36_nonvacuous :
  plain nested_value /\ plain (other_value VTrue) /\ plain (other_value VFalse) /\
  arrays_match nested_value (other_value VTrue) /\ arrays_match nested_value (other_value VFalse) /\
  slots64 (hp (pair_of 0)) /\ slots64 (hp (pair_of 1)) /\
  rep (hp (pair_of 0)) (Some 5%nat) nested_value /\ rep (hp (pair_of 0)) (Some 8%nat) (other_value VTrue) /\
  rep (hp (pair_of 1)) (Some 8%nat) (other_value VFalse) /\
  (exists s', Equal e1 9 (pair_of 0) (Some 5%nat) (Some 8%nat) = Ok (true, s')) /\
  (exists s', Equal e1 9 (pair_of 1) (Some 5%nat) (Some 8%nat) = Ok (false, s')) /\
  (forall a b, x_f64_eq e1 a b = x_f64_eq e1 b a).
Proof.
  assert (HS : forall b, slots64 (hp (pair_of b))).
  { intros b x. cbn [pair_of nested hp]. unfold upd, st0. cbn [hp].
    destruct (x =? 10)%nat; [cbn; lia|]. destruct (x =? 9)%nat; [cbn; lia|]. destruct (x =? 8)%nat; [cbn; lia|].
    destruct (x =? 7)%nat; [cbn; lia|]. destruct (x =? 6)%nat; [cbn; lia|]. destruct (x =? 5)%nat; [cbn; lia|].
    destruct (ReadOnly x); cbn; lia. }
  repeat (split; [first [exact (HS _)|cbn; tauto|idtac]|]).
  - apply rep_obj_intro; [reflexivity|reflexivity|]. constructor; [|constructor]. split; [reflexivity|]. cbn [snd].
    apply rep_arr; [reflexivity|]. constructor; [apply rep_true; reflexivity|]. constructor; [|constructor].
    apply rep_obj_intro; [reflexivity|reflexivity|constructor].
  - apply rep_obj_intro; [reflexivity|reflexivity|]. constructor; [|constructor]. split; [reflexivity|]. cbn [snd].
    apply rep_arr; [reflexivity|]. constructor; [apply rep_true; reflexivity|]. constructor; [|constructor].
    apply rep_obj_intro; [reflexivity|reflexivity|constructor].
  - apply rep_obj_intro; [reflexivity|reflexivity|]. constructor; [|constructor]. split; [reflexivity|]. cbn [snd].
    apply rep_arr; [reflexivity|]. constructor; [apply rep_false; reflexivity|]. constructor; [|constructor].
    apply rep_obj_intro; [reflexivity|reflexivity|constructor].
  - eexists. vm_compute. reflexivity.
  - eexists. vm_compute. reflexivity.
  - intros a b. apply Z.eqb_sym.
Qed.

(** ** Where it fails *)
(** Arrays of different length, built by API calls: true one way, a panic the other. *)
Theorem C36_array_length_refuted : forall E G, exists os s, runs E G none_set st0 os s /\
  rep (hp s) (Some 5%nat) (VArray [VInt 0 0]) /\ rep (hp s) (Some 7%nat) (VArray [VInt 0 0; VInt 0 0]) /\
  (exists s', Equal E 9 s (Some 5%nat) (Some 7%nat) = Ok (true, s')) /\
  (Equal E 9 s (Some 7%nat) (Some 5%nat) = Panic).
Proof.
  intros E G. exists [ONewArray; OSetIndex 5 0 TInt; ONewArray; OSetIndex 7 0 TInt; OSetIndex 7 1 TInt]. eexists.
  split; [apply run_all_runs; vm_compute; reflexivity|].
  split; [apply rep_arr; [reflexivity|]; constructor; [|constructor]; match goal with |- rep ?h (Some ?l) _ => exact (rep_int h l eq_refl) end|].
  split; [apply rep_arr; [reflexivity|]; repeat constructor; match goal with |- rep ?h (Some ?l) _ => exact (rep_int h l eq_refl) end|].
  split; [eexists; vm_compute; reflexivity|vm_compute; reflexivity].
Qed.
Print Assumptions C36_array_length_refuted.

(** Two float32 values with the same number, one of which held a double before. *)
Theorem C36_float_slot_refuted : forall E G, exists os s s', runs E G none_set st0 os s /\
  c_dt (hp s 5) = TFloat /\ c_dt (hp s 6) = TFloat /\ Double E (hp s 5) = Double E (hp s 6) /\
  Equal E 9 s (Some 5%nat) (Some 6%nat) = Ok (false, s').
Proof.
  intros E G. exists [ONew TInt; ONew TInt; OSetDouble 5 13830554455654793216; OSetFloat 5 1065353216; OSetFloat 6 1065353216].
  do 2 eexists. split; [apply run_all_runs; vm_compute; reflexivity|].
  split; [reflexivity|split; [reflexivity|split; [|vm_compute; reflexivity]]]. vm_compute. reflexivity.
Qed.
Print Assumptions C36_float_slot_refuted.

(** A string against a raw string: the first call ignores case and converts the raw string in place,
    so the same call gives another answer the second time. *)
Theorem C36_raw_string_refuted : forall E x y, x_fold E x (x_unescape E y) = true -> x <> x_unescape E y ->
  exists s s1 s2, rep (hp s) (Some 5%nat) (VString x) /\ rep (hp s) (Some 6%nat) (VRawString y) /\
    Equal E 9 s (Some 5%nat) (Some 6%nat) = Ok (true, s1) /\
    Equal E 9 s1 (Some 5%nat) (Some 6%nat) = Ok (false, s2).
Proof.
  intros E x y F NE.
  set (s := mkSt (upd (upd (hp st0) 5 (mkCell TString 0 false [] [] None 0 x [] []))
    6 (mkCell TRaw 0 false [] [] None 0 y [] [])) 7 (cs st0) (nc st0) (pl st0)).
  exists s. do 2 eexists. split; [exact (rep_str (hp s) 5 eq_refl)|]. split; [exact (rep_raw (hp s) 6 eq_refl)|].
  split.
  - rewrite Equal_S. cbv zeta. cbn. rewrite F. reflexivity.
  - rewrite Equal_S. cbv zeta. cbn. destruct (beq x (x_unescape E y)) eqn:Q; [apply beq_eq in Q; contradiction|reflexivity].
Qed.
Print Assumptions C36_raw_string_refuted.
Example C36_raw_nonvacuous : x_fold e1 (bs "AB") (x_unescape e1 (bs "ab")) = true /\ bs "AB" <> x_unescape e1 (bs "ab").
Proof. split; [vm_compute; reflexivity|vm_compute; discriminate]. Qed.
