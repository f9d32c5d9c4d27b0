(** Property C94: typed setters and getters by index.  Each theorem is followed by what it assumes and by
    a concrete case. *)
From Coq Require Import String.
From Verif Require Import Base Values Tactics Env0 HeapModel HeapSpec HeapBase HeapConf HeapGet
  ApiSpec HeapMap HeapCalls HeapObj HeapArr HeapForce HeapMono GetModel HeapTyped HeapIndexed
  Properties_Map Properties_Heap Properties_Clone Properties_Merge Properties_Get.

(** After an indexed setter the array has, at the index or at its end, a value of the type asked for that
    reads as what was set; the getter by index gives it back; every other value in use is as before. *)
Theorem C94_int : forall E G T s l i n, indexable s l -> - 2^63 <= n < 2^63 -> let s' := SetIndexInt G s l i n in
  exists r, at_index s l i s' r /\ c_dt (hp s' r) = TInt /\ reads_int E T (hp s' r) n /\
    forall d, IntByIndex E s' l (place_of i (elems s l)) d = n.
Proof. exact index_int. Qed.
Print Assumptions C94_int.
Theorem C94_string : forall E G s l i b, indexable s l -> let s' := SetIndexString G s l i b in
  exists r, at_index s l i s' r /\ c_dt (hp s' r) = TString /\ reads_text E (hp s' r) b /\
    forall d, fst (StringByIndex E s' l (place_of i (elems s l)) d) = b.
Proof. exact index_string. Qed.
Print Assumptions C94_string.
Theorem C94_bool : forall E G s l i b, indexable s l -> let s' := SetIndexBool G s l i b in
  exists r, at_index s l i s' r /\ reads_bool E (hp s' r) b /\
    forall d, BoolByIndex E s' l (place_of i (elems s l)) d = b.
Proof. exact index_bool. Qed.
Print Assumptions C94_bool.
Theorem C94_double : forall E G T s l i v, indexable s l -> 0 <= v < 2^64 -> let s' := SetIndexDouble G s l i v in
  exists r, at_index s l i s' r /\ c_dt (hp s' r) = TDouble /\ reads_double E T (hp s' r) v /\
    forall d, DoubleByIndex E s' l (place_of i (elems s l)) d = v.
Proof. exact index_double. Qed.
Print Assumptions C94_double.
Theorem C94_time : forall E G T s l i t, indexable s l -> 0 <= x_delphi E t < 2^64 -> let s' := SetIndexTime E G s l i t in
  exists r, at_index s l i s' r /\ c_dt (hp s' r) = TDateTime /\ reads_double E T (hp s' r) (x_delphi E t) /\
    forall d, DoubleByIndex E s' l (place_of i (elems s l)) d = x_delphi E t.
Proof. exact index_time. Qed.
Print Assumptions C94_time.
Theorem C94_float : forall E G T s l i v, indexable s l -> 0 <= v < 2^32 -> let s' := SetIndexFloat G s l i v in
  exists r, at_index s l i s' r /\ c_dt (hp s' r) = TFloat /\ reads_float E T (hp s' r) v /\
    forall d, FloatByIndex E T s' l (place_of i (elems s l)) d = v.
Proof. exact index_float. Qed.
Print Assumptions C94_float.

(** The getters by index: what is stored there, in an array or an object; the default if the index is out
    of range, the entry is nil or the value has no entries.  [StringByIndex] unescapes the text it reads and
    touches nothing else. *)
Theorem C94_found : forall E T s l i x, item s l i = Some (Some x) ->
  (forall d, IntByIndex E s l (Z.of_nat i) d = Int E (hp s x)) /\
  (forall d, BoolByIndex E s l (Z.of_nat i) d = Bool E (hp s x)) /\
  (forall d, DoubleByIndex E s l (Z.of_nat i) d = Double E (hp s x)) /\
  (forall d, FloatByIndex E T s l (Z.of_nat i) d = Float E T (hp s x)) /\
  (forall d, fst (StringByIndex E s l (Z.of_nat i) d) = fst (StringOf E (hp s x)) /\
     let s' := snd (StringByIndex E s l (Z.of_nat i) d) in
     hp s' x = snd (StringOf E (hp s x)) /\ (forall y, y <> x -> hp s' y = hp s y) /\
     nx s' = nx s /\ cs s' = cs s /\ nc s' = nc s /\ pl s' = pl s).
Proof. intros E T. exact (getters_found E (fun n => n) T). Qed.
Print Assumptions C94_found.
Theorem C94_default : forall E T s l i, i < 0 \/ item s l (Z.to_nat i) = None \/ item s l (Z.to_nat i) = Some None ->
  (forall d, IntByIndex E s l i d = d) /\ (forall d, BoolByIndex E s l i d = d) /\ (forall d, DoubleByIndex E s l i d = d) /\
  (forall d, FloatByIndex E T s l i d = d) /\ (forall d, StringByIndex E s l i d = (d, s)).
Proof. intros E T. exact (getters_missing E (fun n => n) T). Qed.
Print Assumptions C94_default.

(** The keyed setters leave a value of their type. *)
Theorem C94_key_types : forall E G s l name, env_ok E -> target E s l name ->
  (forall n s', SetKeyInt E G s l name n = Ok s' -> exists r, fst (ValueByPath E s' (Some l) [name]) = Some r /\ c_dt (hp s' r) = TInt) /\
  (forall b s', SetKeyString E G s l name b = Ok s' -> exists r, fst (ValueByPath E s' (Some l) [name]) = Some r /\ c_dt (hp s' r) = TString) /\
  (forall v s', SetKeyFloat E G s l name v = Ok s' -> exists r, fst (ValueByPath E s' (Some l) [name]) = Some r /\ c_dt (hp s' r) = TFloat) /\
  (forall v s', SetKeyDouble E G s l name v = Ok s' -> exists r, fst (ValueByPath E s' (Some l) [name]) = Some r /\ c_dt (hp s' r) = TDouble) /\
  (forall v s', SetKeyTime E G s l name v = Ok s' -> exists r, fst (ValueByPath E s' (Some l) [name]) = Some r /\ c_dt (hp s' r) = TDateTime).
Proof. intros E G s l name EO. exact (key_types E G EO s l name). Qed.
Print Assumptions C94_key_types.

(** An array [[7, "x"]]: the second element becomes a number and a third one is added; the number at
    location 6 becomes an array. *)
Definition pair_st : st := st_of e1 g0 [ONewArray; OSetIndex 5 0 TInt; OSetInt 6 7; OSetIndex 5 1 TString; OSetString 14 (bs "x")].
Lemma pair_indexable : indexable pair_st 5 /\ indexable pair_st 6.
Proof.
  assert (W : wf pair_st) by (apply st_of_wf; vm_compute; reflexivity).
  split; (split; [exact W|]; split; [apply live_of; vm_compute; reflexivity|]; split; [lia|]).
  - intros x H. change (elems pair_st 5) with [Some 6%nat; Some 14%nat] in H.
    destruct H as [H|[H|[]]]; injection H as <-; (split; [apply live_of; vm_compute; reflexivity|lia]).
  - intros x H. destruct H.
Qed.
Example C94_nonvacuous : indexable pair_st 5 /\ indexable pair_st 6 /\
  (let s' := SetIndexInt g0 pair_st 5 1 42 in
   (IntByIndex e1 s' 5 0 0, IntByIndex e1 s' 5 1 0, IntByIndex e1 s' 5 2 9, Count s' 5) = (7, 42, 9, 2)) /\
  (let s' := SetIndexBool g0 pair_st 5 9 true in
   (IntByIndex e1 s' 5 0 0, BoolByIndex e1 s' 5 2 false, Count s' 5) = (7, true, 3)) /\
  (let s' := SetIndexString g0 pair_st 6 0 (bs "ab") in
   (c_dt (hp s' 6), fst (StringByIndex e1 s' 6 0 []), fst (StringByIndex e1 s' 5 1 [])) = (TArray, bs "ab", bs "x")) /\
  item pair_st 5 1 = Some (Some 14%nat) /\ item pair_st 5 2 = None /\ item pair_st 6 0 = None.
Proof.
  split; [apply pair_indexable|]. split; [apply pair_indexable|]. repeat split; vm_compute; reflexivity.
Qed.
Example C94_key_types_case : env_ok e1 /\ target e1 nested 5 (bs "n") /\
  exists s', SetKeyTime e1 g0 nested 5 (bs "n") (77, 5) = Ok s' /\
    option_map (fun r => c_dt (hp s' r)) (fst (ValueByPath e1 s' (Some 5%nat) [bs "n"])) = Some TDateTime.
Proof.
  split; [apply env0_ok|]. split; [split; [exact nested_tidy|]; split; [left; reflexivity|]; intros D; discriminate D|].
  apply ok_ex. vm_compute. reflexivity.
Qed.
