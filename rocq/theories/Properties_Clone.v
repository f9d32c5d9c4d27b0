(** Property C35: [Clone].  Each theorem is followed by what it assumes and by a concrete case. *)
From Coq Require Import String.
From Verif Require Import Base Values Tactics Env0 HeapModel HeapSpec HeapBase HeapConf HeapGet
  ApiSpec HeapMap HeapCalls HeapObj HeapArr HeapForce HeapClone Properties_Map Properties_Heap.

(** The copy has the content of the original (extension types aside), the original and everything
    else in use keeps its content, and the copy consists of shared constants and cells that were not
    in use. *)
Theorem C35_content : forall G s l v uc, wf s -> cloneable_graph s l -> rep (hp s) (Some l) v -> clonable v ->
  exists n0, forall fuel, (n0 <= fuel)%nat -> exists r s', Clone G fuel s (Some l) uc = Ok (r, s') /\
    rep (hp s') (Some r) (strip v) /\
    (forall x, live s x -> hp s' x = hp s x /\ live s' x) /\
    (forall x, reach (hp s') r x -> (x < 5)%nat \/ ((5 <= x)%nat /\ ~ live s x /\ live s' x)).
Proof.
  intros G s l v uc W CG R CB. destruct (clone_content G s l v uc W CG R CB) as [n0 H]. exists n0. intros fuel Fu.
  destruct (H fuel Fu) as (r & s' & A & B & C & D & _). exists r, s'. auto.
Qed.
Print Assumptions C35_content.

(** Later calls on the copy, or on anything outside the part [P] the original lies in, are invisible
    in the original. *)
Theorem C35_original_independent : forall E G P PC s l v uc, inv P PC s -> cloneable_graph s l ->
  rep (hp s) (Some l) v -> clonable v -> (forall x, reach (hp s) l x -> (x < 5)%nat \/ P x) ->
  exists n0, forall fuel, (n0 <= fuel)%nat -> exists r s', Clone G fuel s (Some l) uc = Ok (r, s') /\
    (forall x, reach (hp s') r x -> (x < nx s')%nat /\ ~ P x) /\
    forall os s'', runs E G P s' os s'' -> rep (hp s'') (Some l) v.
Proof. exact clone_leaves_original. Qed.
Print Assumptions C35_original_independent.

(** Later calls on the original, or on anything but the cells made by the call, are invisible in the
    copy. *)
Theorem C35_copy_independent : forall E G s l v uc, wf s -> cloneable_graph s l -> rep (hp s) (Some l) v -> clonable v ->
  (uc = None \/ uc = Some None) ->
  exists n0, forall fuel, (n0 <= fuel)%nat -> exists r s', Clone G fuel s (Some l) uc = Ok (r, s') /\
    inv (made (nx s) (nx s')) (made (nc s) (nc s')) s' /\
    (forall x, reach (hp s') r x -> (x < 5)%nat \/ made (nx s) (nx s') x) /\
    forall os s'', runs E G (made (nx s) (nx s')) s' os s'' -> rep (hp s'') (Some r) (strip v).
Proof. exact clone_is_confined. Qed.
Print Assumptions C35_copy_independent.
Theorem C35_copy_in_recycled_cache : forall E G P PC s l v i, let s1 := snd (getCache s (Some i)) in
  wf s -> inv P PC s1 -> PC (fst (getCache s (Some i))) -> (forall k x, PC k -> In x (ca_slots (cs s1 k)) -> P x) ->
  cloneable_graph s l -> rep (hp s) (Some l) v -> clonable v ->
  exists n0, forall fuel, (n0 <= fuel)%nat -> exists r s', Clone G fuel s (Some l) (Some (Some i)) = Ok (r, s') /\
    (forall x, reach (hp s') r x -> (x < 5)%nat \/ since (nx s1) (nx s') P x) /\
    forall os s'', runs E G (since (nx s1) (nx s') P) s' os s'' -> rep (hp s'') (Some r) (strip v).
Proof. exact clone_pooled_confined. Qed.
Print Assumptions C35_copy_in_recycled_cache.

(** [{"a\/":[true,{}]}]. *)
Definition nested_value : value := VObject false [(bs "a\/", VArray [VTrue; VObject true []])].
Lemma nested_rep : rep (hp nested) (Some 5%nat) nested_value.
Proof.
  apply rep_obj_intro; [reflexivity|reflexivity|]. constructor; [|constructor]. split; [reflexivity|]. cbn [snd].
  apply rep_arr; [reflexivity|]. constructor; [apply rep_true; reflexivity|]. constructor; [|constructor].
  apply rep_obj_intro; [reflexivity|reflexivity|constructor].
Qed.
Lemma nested_live x : (x < 8)%nat -> live nested x.
Proof. intros L. split; [cbn; lia|]. intros k K. cbn in K. lia. Qed.
Lemma nested_cells x : reach (hp nested) 5 x -> x = 5%nat \/ x = 6%nat \/ x = 7%nat \/ x = 0%nat.
Proof. intros R. induction R as [|x y R IH S]; auto. apply sees_child, nested_child in S. lia. Qed.
Lemma nested_graph : cloneable_graph nested 5.
Proof.
  intros x R. apply nested_cells in R. split; [apply nested_live; lia|].
  destruct R as [->|[->|[->| ->]]]; cbn; lia.
Qed.
Definition all_nested : nat_set := fun x => (5 <= x < 8)%nat.
Lemma nested_apart : inv all_nested none_set nested.
Proof.
  destruct wf_nested as [A B C D F H I J K L M]. constructor; auto.
  - intros l NP. split; [intros x X; apply nested_child in X; unfold all_nested in *; lia|intros k _ []].
Qed.
Example C35_nonvacuous : wf nested /\ cloneable_graph nested 5 /\ rep (hp nested) (Some 5%nat) nested_value /\
  clonable nested_value /\ inv all_nested none_set nested /\
  (forall x, reach (hp nested) 5 x -> (x < 5)%nat \/ all_nested x) /\
  (exists s', Clone g0 9 nested (Some 5%nat) None = Ok (8%nat, s') /\ c_arr (hp s' 16) = [Some 0%nat; Some 24%nat]) /\
  (exists s', Clone g0 9 nested (Some 5%nat) (Some None) = Ok (8%nat, s') /\ c_arr (hp s' 9) = [Some 0%nat; Some 10%nat]).
Proof.
  split; [exact wf_nested|]. split; [exact nested_graph|]. split; [exact nested_rep|]. split; [cbn; auto|].
  split; [exact nested_apart|]. split; [|split; eexists; split; vm_compute; reflexivity].
  intros x R. apply nested_cells in R. unfold all_nested. lia.
Qed.
(** A recycled cache: one cached array freed, then a copy of a constant-only array made in it. *)
Definition recycled : st :=
  match run_all e1 g0 nested [ONewCache None TArray; OSetIndex 8 0 TInt; OFree (Some 8%nat)] with Ok s => s | _ => nested end.
Example C35_recycled_nonvacuous : pl recycled = [0%nat] /\
  ca_slots (cs recycled 0) = seq 8 8 /\ ca_len (cs recycled 0) = 0%nat /\
  inv (fun x => (8 <= x < 16)%nat) (fun k => k = 0%nat) (snd (getCache recycled (Some 0%nat))).
Proof.
  split; [reflexivity|]. split; [reflexivity|]. split; [reflexivity|].
  assert (W : wf recycled).
  { assert (R : runs e1 g0 none_set nested [ONewCache None TArray; OSetIndex 8 0 TInt; OFree (Some 8%nat)] recycled).
    { apply run_all_runs; [vm_compute; reflexivity|]. unfold recycled.
      destruct (run_all e1 g0 nested _) as [s| | |] eqn:Q; [reflexivity|vm_compute in Q; discriminate..]. }
    apply (tr_runs none_set none_set e1 g0 nested _ recycled wf_nested R). }
  assert (W1 : wf (snd (getCache recycled (Some 0%nat)))) by (apply (tr_getCache none_set none_set recycled (Some 0%nat) W)).
  destruct W1 as [A B C D F H I J K L M]. constructor; auto.
  - intros l NP. change (hp (snd (getCache recycled (Some 0%nat)))) with (hp recycled).
    assert (Q : hp recycled l = hp nested l \/ (16 <= l)%nat).
    { destruct (Nat.lt_ge_cases l 16) as [X|X]; [left|right; auto].
      assert (X8 : (l < 8)%nat) by lia. do 8 (destruct l as [|l]; [vm_compute; reflexivity|]). lia. }
    destruct Q as [Q|Q].
    + rewrite Q. split.
      * intros x X. apply nested_child in X. lia.
      * intros k X. destruct (nested_cell l) as [->|[->|[->|QQ]]]; try discriminate. rewrite QQ in X. unfold st0 in X; cbn [hp] in X.
        destruct (ReadOnly l); discriminate.
    + assert (FR : hp recycled l = zero_cell) by (apply (i_fresh _ _ _ W); exact Q). rewrite FR.
      split; [intros x X; destruct (child_zero _ X)|intros k X; discriminate].
  - intros l X. assert (NX : nx (snd (getCache recycled (Some 0%nat))) = 16%nat) by (vm_compute; reflexivity). rewrite NX. lia.
  - intros k ->. apply Nat.ltb_lt. vm_compute. reflexivity.
  - assert (NC : nc (snd (getCache recycled (Some 0%nat))) = 1%nat) by (vm_compute; reflexivity). rewrite NC. intros k l X Y. lia.
Qed.

(** ** Violations *)
Definition one_cell (c : cell) : st := mkSt (upd (hp st0) 5 c) 6 (cs st0) (nc st0) (pl st0).
(** The content of a binary is dropped. *)
Theorem C35_binary_refuted : forall G e b, b <> [] ->
  let s := one_cell (mkCell TBinary e false [] [] None 0 [] b []) in
  rep (hp s) (Some 5%nat) (VBinary e b) /\
  exists r s', Clone G 1 s (Some 5%nat) None = Ok (r, s') /\ rep (hp s') (Some r) (VBinary 0 []).
Proof.
  intros G e b NE s. split; [apply (rep_bin (hp s) 5); reflexivity|]. do 2 eexists. split; [vm_compute; reflexivity|].
  match goal with |- rep ?h _ _ => exact (rep_bin h 6 eq_refl) end.
Qed.
Print Assumptions C35_binary_refuted.
(** A boolean made with [SetBool] is shared: changing the "copy" changes the original. *)
Theorem C35_shared_boolean_refuted : forall E G (b : bool), exists s r s',
  runs E G none_set st0 [ONew TInt; OSetBool 5 b] s /\ rep (hp s) (Some 5%nat) (if b then VTrue else VFalse) /\
  Clone G 1 s (Some 5%nat) None = Ok (r, s') /\
  rep (hp (SetBool s' r (negb b))) (Some 5%nat) (if b then VFalse else VTrue).
Proof.
  intros E G b. do 3 eexists. split; [|split; [|split]].
  - eapply runs_cons with (fuel := 0%nat); [intros l []|reflexivity|].
    eapply runs_cons with (fuel := 0%nat); [intros l [<-|[]]; split; [cbn; lia|intros []]|reflexivity|]. constructor.
  - destruct b; constructor; reflexivity.
  - destruct b; reflexivity.
  - destruct b; constructor; reflexivity.
Qed.
Print Assumptions C35_shared_boolean_refuted.
(** An object with a nil entry cannot be copied. *)
Theorem C35_nil_entry_refuted : forall G k fuel, exists s, wf s /\
  rep (hp s) (Some 5%nat) (VObject false [(k, VNilP)]) /\ (Clone G (S (S (S fuel))) s (Some 5%nat) None = Panic).
Proof.
  intros G k fuel. exists (parsed_obj [(k, None)]). split; [apply wf_parsed; cbn; intros x [X|[]]; discriminate|].
  split; [|reflexivity]. apply rep_obj_intro; [reflexivity|reflexivity|]. constructor; [|constructor]. split; [reflexivity|constructor].
Qed.
Print Assumptions C35_nil_entry_refuted.
