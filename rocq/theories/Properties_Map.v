(** Properties C28-C32: objects, arrays and paths under sequences of API calls.  Each theorem is
    followed by what it assumes and by a concrete case. *)
From Coq Require Import String.
From Verif Require Import Base Values Tactics Env0 JsonModel HeapModel HeapSpec HeapBase HeapConf HeapGet
  ApiSpec HeapMap HeapCalls HeapObj HeapArr.

(** ** The concrete external functions meet the hypotheses *)
Lemma index_none a : index_byte a 92 = None <-> ~ In 92 a.
Proof.
  induction a as [|c a IH]; cbn [index_byte]; [tauto|]. destruct (Z.eqb_spec c 92) as [->|Q].
  - split; [discriminate|]. intros H; exfalso; apply H; left; auto.
  - destruct (index_byte a 92); (split; intros H; [|]); try discriminate.
    + exfalso. destruct IH as [_ IH]. assert (X : Some n = None) by (apply IH; intros X; apply H; right; auto). discriminate.
    + intros [X|X]; [congruence|]. apply IH in X; auto.
    + reflexivity.
Qed.
Lemma plain_iff a : no_backslash a = true <-> ~ In 92 a.
Proof. unfold no_backslash. rewrite <- index_none. destruct (index_byte a 92); split; congruence. Qed.
Lemma lower0_92 c : lower0 c = 92 -> c = 92.
Proof. unfold lower0. destruct ((65 <=? c) && (c <=? 90)) eqn:B; auto. apply andb_true_iff in B as [B1 B2]. apply Z.leb_le in B1, B2. lia. Qed.
Lemma env0_ok ic : env_ok (env0 ic).
Proof.
  constructor; cbn [x_fold x_unescape env0].
  - intros a. apply beq_refl.
  - intros a b. rewrite beq_sym. auto.
  - intros a b c H1 H2. apply beq_eq in H1, H2. apply beq_eq. congruence.
  - intros a b H P. apply beq_eq in H. rewrite plain_iff in *. intros X. apply P.
    apply (in_map lower0) in X. rewrite H in X. apply in_map_iff in X as (c & Q & I).
    apply lower0_92 in Q. subst. exact I.
  - intros a P. rewrite plain_iff in P. induction a as [|c a IH]; [reflexivity|].
    assert (c <> 92) by (intros ->; apply P; left; auto).
    transitivity (c :: unesc0 a).
    + destruct c as [|c|c]; try reflexivity. repeat (destruct c as [c|c|]; try reflexivity; try congruence).
    + f_equal. apply IH. intros X; apply P; right; auto.
Qed.

(** ** C28 *)
Theorem C28_ordered_map : forall E G l s h s', env_ok E ->
  obj_steps E G l s h s' -> good_obj s l -> distinct_keys (key_match E) (pairs E s l) ->
  let h' := h ++ as_history (pairs E s l) in
  map (fun kv => (fst kv, Some (snd kv))) (pairs E s' l) = content (key_match E) h' /\
  Count s' l = zlen (key_order (key_match E) h') /\
  (forall name, fst (ValueByName E s' l name) =
     match last_set (key_match E) h' name with Some p => p | None => None end) /\
  (forall name, fst (ExtractValue E s' l name) = fst (ValueByName E s' l name)).
Proof. intros E G l s h s' EO. exact (objects_are_ordered_maps E G EO l s h s'). Qed.
Print Assumptions C28_ordered_map.

(** A fresh object; four calls under IgnoreCase: two new keys, the first again in the other case
    with another type, removal of the second. *)
Definition g0 (n : nat) : nat := 0%nat.
Definition e1 := env0 true.
Definition sA : st := snd (NewValue st0 TObject).
Definition oA : nat := fst (NewValue st0 TObject).
Definition sk (s : st) (n : bytes) (t : vtype) : st := match SetKey e1 g0 s oA n t with Ok (_, s1) => s1 | _ => s end.
Definition rk (s : st) (n : bytes) (t : vtype) : nat := match SetKey e1 g0 s oA n t with Ok (r, _) => r | _ => 0%nat end.
Definition sB : st := sk sA (bs "a") TInt.
Definition sC : st := sk sB (bs "b") TString.
Definition sD : st := sk sC (bs "A") TDouble.
Definition sE : st := RemoveKey e1 sD oA (bs "B").
Lemma good_A : good_obj sA oA.
Proof.
  split; [exact (proj1 (proj1 (tr_NewValue none_set none_set st0 TObject wf_st0)))|].
  split; [split; [apply Nat.ltb_lt; reflexivity|]|split; [reflexivity|intros []]].
  intros k K. apply Nat.nlt_0_r in K. destruct K.
Qed.
Example C28_nonvacuous :
  obj_steps e1 g0 oA sA [EDel (bs "B"); ESet (bs "A") (Some (rk sC (bs "A") TDouble));
     ESet (bs "b") (Some (rk sB (bs "b") TString)); ESet (bs "a") (Some (rk sA (bs "a") TInt))] sE /\
  good_obj sA oA /\ distinct_keys (key_match e1) (pairs e1 sA oA) /\
  pairs e1 sD oA = [(bs "a", Some 6%nat); (bs "b", Some 14%nat)] /\
  pairs e1 sE oA = [(bs "a", Some 6%nat)] /\ c_dt (hp sE 6%nat) = TDouble.
Proof.
  split; [|split; [exact good_A|split; [constructor|split; [reflexivity|split; reflexivity]]]].
  change [EDel (bs "B"); ESet (bs "A") (Some (rk sC (bs "A") TDouble));
     ESet (bs "b") (Some (rk sB (bs "b") TString)); ESet (bs "a") (Some (rk sA (bs "a") TInt))]
    with ([EDel (bs "B")] ++ [ESet (bs "A") (Some (rk sC (bs "A") TDouble))] ++
     [ESet (bs "b") (Some (rk sB (bs "b") TString))] ++ [ESet (bs "a") (Some (rk sA (bs "a") TInt))] ++ []).
  apply (oss_cons e1 g0 oA sA _ sD _ sE); [|apply os_remove].
  apply (oss_cons e1 g0 oA sA _ sC _ sD); [|apply (os_set e1 g0 oA sC (bs "A") TDouble); reflexivity].
  apply (oss_cons e1 g0 oA sA _ sB _ sC); [|apply (os_set e1 g0 oA sB (bs "b") TString); reflexivity].
  apply (oss_cons e1 g0 oA sA _ sA _ sB); [constructor|apply (os_set e1 g0 oA sA (bs "a") TInt); reflexivity].
Qed.

(** The indexed readers show the same pairs. *)
Theorem C28_readers : forall E s l, good_obj s l ->
  Count s l = zlen (pairs E s l) /\
  (forall p kv q, pairs E s l = p ++ kv :: q ->
     fst (Items E s l (zlen p)) = kv /\ ValueByIndex s l (zlen p) = snd kv /\
     KeyNameByIndex (snd (Items E s l (zlen p))) l (zlen p) = fst kv /\
     pairs E (snd (Items E s l (zlen p))) l = pairs E s l) /\
  (forall i, ~ 0 <= i < zlen (pairs E s l) ->
     Items E s l i = (([], None), s) /\ ValueByIndex s l i = None /\ KeyNameByIndex s l i = []).
Proof. intros E s l (_ & _ & T & _). exact (object_readers E (fun n => n) s l T). Qed.
Print Assumptions C28_readers.
Example C28_readers_nonvacuous :
  fst (Items e1 sD oA 1) = (bs "b", Some 14%nat) /\ (ValueByIndex sD oA 0 = Some 6%nat) /\
  (ValueByIndex sD oA 2 = None) /\ (KeyNameByIndex sD oA 1 = bs "b") /\ (Count sD oA = 2).
Proof. repeat split. Qed.

(** ** C29 *)
Theorem C29_no_duplicates : forall E G l s h s', env_ok E ->
  obj_steps E G l s h s' -> good_obj s l ->
  distinct_keys (key_match E) (pairs E s l) -> distinct_keys (key_match E) (pairs E s' l).
Proof. intros E G l s h s' EO. exact (no_duplicate_keys E G EO l s h s'). Qed.
Print Assumptions C29_no_duplicates.
Example C29_nonvacuous : good_obj sA oA /\ distinct_keys (key_match e1) (pairs e1 sA oA) /\
  pairs e1 sD oA = [(bs "a", Some 6%nat); (bs "b", Some 14%nat)] /\ env_ok e1.
Proof. split; [exact good_A|split; [constructor|split; [reflexivity|apply env0_ok]]]. Qed.

(** ** C30 *)
Theorem C30_lists : forall E G l s R s', arr_steps E G l s R s' -> good_arr s l ->
  good_arr s' l /\ R (c_arr (hp s l)) (c_arr (hp s' l)).
Proof. exact arrays_are_lists. Qed.
Print Assumptions C30_lists.
Theorem C30_readers : forall E s l, good_arr s l ->
  Count s l = zlen (c_arr (hp s l)) /\
  (forall i p q x, c_arr (hp s l) = p ++ x :: q -> zlen p = i ->
     ValueByIndex s l i = x /\ fst (Items E s l i) = ([], x)) /\
  (forall i, ~ 0 <= i < zlen (c_arr (hp s l)) -> ValueByIndex s l i = None /\ fst (Items E s l i) = ([], None)).
Proof. intros E. exact (array_readers E (fun n => n)). Qed.
Print Assumptions C30_readers.
Definition tA : st := snd (NewValue st0 TArray).
Definition tB : st := snd (SetIndex g0 tA oA 7 TInt).
Definition tC : st := snd (InsertValue tB oA (-3) TString).
Definition tD : st := snd (SetIndex g0 tC oA 1 TDouble).
Definition tF : st := SetIndexValue tD oA (-1) (Some loc_true).
Definition tG : st := RemoveIndex tF oA 0.
Lemma good_tA : good_arr tA oA.
Proof.
  split; [exact (proj1 (proj1 (tr_NewValue none_set none_set st0 TArray wf_st0)))|].
  split; [split; [apply Nat.ltb_lt; reflexivity|]|split; [reflexivity|intros []]].
  intros k K. apply Nat.nlt_0_r in K. destruct K.
Qed.
Example C30_nonvacuous : good_arr tA oA /\
  (exists R, arr_steps e1 g0 oA tA R tG) /\
  c_arr (hp tC oA) = [Some 14%nat; Some 6%nat] /\ c_arr (hp tF oA) = [Some 14%nat; Some 6%nat; Some loc_true] /\
  c_arr (hp tG oA) = [Some 6%nat; Some loc_true] /\ c_dt (hp tG 6%nat) = TDouble.
Proof.
  split; [exact good_tA|]. split; [|repeat split; reflexivity].
  eexists. eapply (ass_cons e1 g0 oA tA _ tF _ tG); [|apply as_remove].
  eapply (ass_cons e1 g0 oA tA _ tD _ tF); [|apply as_value; [discriminate|intros x H; injection H as <-; apply Nat.ltb_lt; reflexivity]].
  eapply (ass_cons e1 g0 oA tA _ tC _ tD); [|apply (as_set e1 g0 oA tC 1 TDouble 6%nat); reflexivity].
  eapply (ass_cons e1 g0 oA tA _ tB _ tC); [|apply (as_insert e1 g0 oA tB (-3) TString 14%nat); reflexivity].
  eapply (ass_cons e1 g0 oA tA _ tA _ tB); [constructor|apply (as_set e1 g0 oA tA 7 TInt 6%nat); reflexivity].
Qed.

(** ** C31 *)
Theorem C31_reading_invisible : forall E l s s', env_ok E -> reads E l s s' -> good_obj s l ->
  distinct_keys (key_match E) (pairs E s l) ->
  (forall name, fst (ValueByName E s' l name) = fst (ValueByName E s l name)) /\
  (forall i, fst (Items E s' l i) = fst (Items E s l i)) /\ Count s' l = Count s l.
Proof. intros E l s s' EO. exact (reading_is_invisible E EO l s s'). Qed.
Print Assumptions C31_reading_invisible.
(** An object with an escaped key as the parser leaves it. *)
Definition parsed_obj (kvs : list (bytes * ptr)) : st :=
  mkSt (upd (hp st0) 5 (mkCell TObject 0 false kvs [] None 0 [] [] [])) 6 (cs st0) (nc st0) (pl st0).
Definition escaped1 : st := parsed_obj [(bs "a\/", Some loc_true); (bs "b", Some loc_false)].
Lemma wf_parsed kvs : (forall x, In (Some x) (map snd kvs) -> (x < 6)%nat) -> wf (parsed_obj kvs).
Proof.
  intros H. constructor; try (intros; cbn in *; tauto); try (cbn; lia).
  - intros l L. cbn [parsed_obj hp]. rewrite upd_other by lia. apply (i_const _ _ _ wf_st0 l L).
  - intros l L. cbn [parsed_obj hp nx] in *. rewrite upd_other by lia. apply (i_fresh _ _ _ wf_st0). cbn. lia.
  - intros l L. cbn [parsed_obj hp nx] in *. destruct (Nat.eq_dec l 5) as [->|Q].
    + rewrite upd_same. split; [|intros k K; discriminate]. intros x [X|X]; [|destruct X].
      apply H; exact X.
    + rewrite upd_other by auto. assert (L5 : (l < nx st0)%nat) by (cbn; lia).
      destruct (i_cell _ _ _ wf_st0 l L5) as [A B]. split; [|exact B].
      intros x X. apply A in X. cbn in *; lia.
  - intros l _. split; intros x X Y; exact Y.
  - intros l [].
  - intros l [].
Qed.
Lemma good_parsed kvs : (forall x, In (Some x) (map snd kvs) -> (x < 5)%nat) -> good_obj (parsed_obj kvs) 5.
Proof.
  intros H. split; [apply wf_parsed; intros x X; apply H in X; lia|].
  split; [split; [cbn; lia|intros k K; apply Nat.nlt_0_r in K; destruct K]|].
  split; [reflexivity|]. cbn. intros X. apply H in X. lia.
Qed.
Example C31_nonvacuous : good_obj escaped1 5 /\
  distinct_keys (key_match e1) (pairs e1 escaped1 5) /\
  fst (ValueByName e1 escaped1 5 (bs "A/")) = Some loc_true /\
  c_kvs (hp (snd (ValueByName e1 escaped1 5 (bs "A/"))) 5) = [(bs "a/", Some loc_true); (bs "b", Some loc_false)] /\
  reads e1 5 escaped1 (snd (ValueByName e1 escaped1 5 (bs "A/"))).
Proof.
  split; [apply good_parsed; cbn; intros x [X|[X|[]]]; injection X as <-; unfold loc_true, loc_false; lia|].
  split; [constructor; [constructor; [reflexivity|constructor]|constructor; [constructor|constructor]]|].
  split; [reflexivity|split; [reflexivity|]]. eapply rd_cons; [constructor|apply rs_lookup].
Qed.
(** With two spellings of one key a missed lookup changes the answer of the next one.  The state is
    the parse of [{"\/":true,"/":false}]. *)
Definition two_spellings : st := parsed_obj [([92; 47], Some loc_true); ([47], Some loc_false)].
Theorem C31_two_spellings_refuted : forall E, ignore_case E = false -> x_unescape E [92; 47] = [47] ->
  (exists v, NewValueFromJson E (bs "{""\/"":true,""/"":false}") = Ok v /\ rep (hp two_spellings) (Some 5%nat) v) /\
  good_obj two_spellings 5 /\
  fst (ValueByName E two_spellings 5 [47]) = Some loc_false /\
  fst (ValueByName E (snd (ValueByName E two_spellings 5 (bs "x"))) 5 [47]) = Some loc_true.
Proof.
  intros E IC U1. split.
  - exists (VObject false [([92; 47], VTrue); ([47], VFalse)]). split.
    + reflexivity.
    + apply (rep_obj (hp two_spellings) 5 [([92; 47], VTrue); ([47], VFalse)]); [reflexivity|].
      constructor; [|constructor; [|constructor]]; (split; [reflexivity|]); cbn [snd].
      * apply (rep_true (hp two_spellings) loc_true). reflexivity.
      * apply (rep_false (hp two_spellings) loc_false). reflexivity.
  - split; [apply good_parsed; cbn; intros x [X|[X|[]]]; injection X as <-; unfold loc_true, loc_false; lia|].
    destruct E as [ic fold un]; cbn [ignore_case x_unescape] in *; subst ic.
    split; [reflexivity|]. vm_compute. rewrite U1. reflexivity.
Qed.
Print Assumptions C31_two_spellings_refuted.
(** [KeyNameByIndex] shows the raw key until some lookup misses. *)
Theorem C31_key_name_refuted : forall E, ignore_case E = false -> x_unescape E [92; 47] = [47] ->
  let s := parsed_obj [([92; 47], Some loc_true)] in
  KeyNameByIndex s 5 0 = [92; 47] /\ KeyNameByIndex (snd (ValueByName E s 5 (bs "x"))) 5 0 = [47].
Proof.
  intros E IC U. cbv zeta. split; [reflexivity|].
  destruct E as [ic fold un]; cbn [ignore_case x_unescape] in *; subst ic. vm_compute. exact U.
Qed.
Print Assumptions C31_key_name_refuted.
Example C31_refuted_nonvacuous : x_unescape (env0 false) [92; 47] = [47].
Proof. reflexivity. Qed.

(** ** C32 *)
Theorem C32_walk : forall E s l paths r, env_ok E -> all_distinct E s ->
  (fst (ValueByPath E s (Some l) paths) = r <-> walk E s l paths r).
Proof. intros E s l paths r EO. exact (path_lookup_is_walk E (fun n => n) EO s l paths r). Qed.
Print Assumptions C32_walk.
Theorem C32_concat : forall E s p paths1 paths2,
  ValueByPath E s p (paths1 ++ paths2) =
    let (q, s1) := ValueByPath E s p paths1 in ValueByPath E s1 q paths2.
Proof. exact path_concat. Qed.
Print Assumptions C32_concat.
Theorem C32_getters : forall E s l paths, env_ok E -> all_distinct E s ->
  (walk E s l paths None ->
     (forall d, fst (IntByPath E s (Some l) d paths) = d) /\ (forall d, fst (BoolByPath E s (Some l) d paths) = d) /\
     (forall d, fst (DoubleByPath E s (Some l) d paths) = d) /\ (forall d, fst (StringByPath E s (Some l) d paths) = d)) /\
  (forall m, walk E s l paths (Some m) ->
     (forall d, fst (IntByPath E s (Some l) d paths) = Int E (hp s m)) /\
     (forall d, fst (BoolByPath E s (Some l) d paths) = Bool E (hp s m)) /\
     (forall d, fst (DoubleByPath E s (Some l) d paths) = Double E (hp s m)) /\
     (forall d, fst (StringByPath E s (Some l) d paths) = fst (StringOf E (hp s m)))).
Proof. intros E s l paths EO. exact (path_getters E (fun n => n) EO s l paths). Qed.
Print Assumptions C32_getters.
(** {"a\/":[true, {}]} built in the heap: cell 5 the root, 6 the array, 7 the inner object. *)
Definition nested : st :=
  mkSt (upd (upd (upd (hp st0) 5 (mkCell TObject 0 false [(bs "a\/", Some 6%nat)] [] None 0 [] [] []))
    6 (mkCell TArray 0 false [] [] None 0 [] [] [Some loc_true; Some 7%nat]))
    7 (mkCell TObject 0 true [] [] None 0 [] [] [])) 8 (cs st0) (nc st0) (pl st0).
Example C32_nonvacuous : all_distinct e1 nested /\
  walk e1 nested 5 [bs "A/"; bs "1"] (Some 7%nat) /\ walk e1 nested 5 [bs "a/"; bs "2"] None /\
  fst (BoolByPath e1 nested (Some 5%nat) false [bs "a/"; bs "0"]) = true.
Proof.
  split; [|split; [|split; [|vm_compute; reflexivity]]].
  - intros l _. unfold pairs, nested. cbn [hp].
    destruct (Nat.eq_dec l 7) as [->|Q7]; [constructor|]. rewrite (upd_other _ 7) by auto.
    destruct (Nat.eq_dec l 6) as [->|Q6]; [constructor|]. rewrite (upd_other _ 6) by auto.
    destruct (Nat.eq_dec l 5) as [->|Q5]; [vm_compute; constructor; [constructor|constructor]|]. rewrite (upd_other _ 5) by auto.
    unfold st0. cbn [hp]. destruct (ReadOnly l); constructor.
  - eapply (walk_key e1 nested 5 _ (bs "a/") 6); [reflexivity|left; reflexivity|reflexivity|].
    apply (walk_elem e1 nested 6 (bs "1") 1 [Some loc_true] [] 7 []); try reflexivity. constructor.
  - eapply (walk_key e1 nested 5 _ (bs "a/") 6); [reflexivity|left; reflexivity|reflexivity|].
    apply walk_no_elem; [reflexivity|]. vm_compute. intros [_ H]. discriminate.
Qed.
