(** Parsing without aliases always ends. *)
From Verif Require Import Base Values Tactics HeapModel HeapSpec HeapBase YamlModel YamlSpec YamlThms.

Lemma In_drop_sp x b : In x (drop_sp b) -> In x b.
Proof. induction b as [|c b IH]; cbn [drop_sp]; auto. destruct (is_sp c); [right; auto|auto]. Qed.
Lemma In_trim x b : In x (trim b) -> In x b.
Proof. unfold trim. intros H. apply In_drop_sp. rewrite in_rev. apply In_drop_sp. rewrite in_rev. exact H. Qed.
Lemma In_firstn {A} (x : A) n b : In x (firstn n b) -> In x b.
Proof. revert b; induction n as [|n IH]; intros [|c b] H; cbn [firstn] in H; try destruct H as [H|H]; try contradiction; [left; auto|right; auto]. Qed.

Lemma In_skipn {A} (x : A) n b : In x (skipn n b) -> In x b.
Proof. revert b; induction n as [|n IH]; intros [|c b] H; cbn [skipn] in H; auto. right; auto. Qed.
Lemma In_split_kv x d k v b : splitKv d = (k, v, b) -> (In x k -> In x d) /\ (In x v -> In x d).
Proof.
  unfold splitKv. cbv zeta. pose proof (In_trim x d) as T. pose proof (In_trim x) as T2.
  destruct (index_byte (trim d) 58) as [i|].
  - destruct (skipn (S i) (trim d)) as [|c r] eqn:Q.
    + intros H; injection H as <- <- <-. split; [|intros []]. intros H. apply T2, In_firstn in H. auto.
    + destruct (c =? 32); intros H; injection H as <- <- <-.
      * split; intros H; [apply T2, In_firstn in H; auto|]. apply T2 in H. apply T.
        apply (In_skipn x (S i)). rewrite Q. right; auto.
      * split; [auto|intros []].
  - intros H; injection H as <- <- <-. split; [auto|intros []].
Qed.

Section Term.
Variable E : env.
Variable G : nat -> nat.
Variable pick : st -> option nat.
Variable cf : nat.
Definition ends {A} (r : res A) : Prop := r <> OutOfFuel.
Lemma ends_bind {A B} (r : res A) (f : A -> res B) : ends r -> (forall a, ends (f a)) -> ends (bind r f).
Proof. unfold ends. destruct r; cbn [bind]; auto; discriminate. Qed.
Lemma ends_ok {A} (a : A) : ends (Ok a). Proof. discriminate. Qed.

Lemma ends_set_key s l name t c : ends (SetKeyCached E G s l name t c).
Proof.
  unfold SetKeyCached. cbv zeta. destruct (_ && _); [apply ends_ok|].
  destruct (obj_index _ _ _ _) as [[i|] s2].
  - destruct (nth_error _ _) as [[k [r|]]|]; try discriminate.
    destruct (ReadOnly r); [destruct (getValue G s2 c t); apply ends_ok|]. destruct (vt_eqb _ _); apply ends_ok.
  - destruct (getValue G s2 c t). apply ends_ok.
Qed.
Lemma ends_psv d : forall p s t v, ~ In 42 v -> ends (parseStringValue E G cf d p s t v).
Proof.
  induction d as [|d IH]; intros p s t v NS; cbn [parseStringValue];
    destruct (beq v b_true); try apply ends_ok; destruct (beq v b_false); try apply ends_ok;
    destruct (x_parsefloat E v); try apply ends_ok; destruct v as [|c v]; try discriminate;
    cbv zeta; destruct (_ && _); try apply ends_ok; destruct (_ && _); try apply ends_ok.
  - destruct (c =? 38); [apply ends_ok|].
    destruct (Z.eqb_spec c 42) as [->|]; [exfalso; apply NS; left; auto|apply ends_ok].
  - destruct (c =? 38).
    + destruct (index_byte (c :: v) 32) as [i|]; [|apply ends_ok].
      destruct (trim (skipn (S i) (c :: v))) as [|c' w] eqn:T; [apply ends_ok|].
      apply IH. rewrite <- T. intros H. apply In_trim, In_skipn in H. auto.
    + destruct (Z.eqb_spec c 42) as [->|]; [exfalso; apply NS; left; auto|apply ends_ok].
Qed.
Lemma merge_none p s l k v : ~ In 42 v ->
  mergeObj G cf p s l k v = Ok (None, false, s) \/ mergeObj G cf p s l k v = Ok (Some ErrYaml, false, s).
Proof.
  intros NS. unfold mergeObj. destruct (beq k b_merge); [|auto]. destruct v as [|c v]; [auto|].
  destruct (Z.eqb_spec c 42) as [->|]; [exfalso; apply NS; left; auto|auto].
Qed.
Lemma ends_merge p s l k v : ~ In 42 v -> ends (mergeObj G cf p s l k v).
Proof. intros NS. destruct (merge_none p s l k v NS) as [-> | ->]; apply ends_ok. Qed.
Lemma ends_sub p s l k v : ~ In 42 v -> ends (sub_value E G cf p s l k v).
Proof.
  intros NS. unfold sub_value. destruct v as [|c r].
  { apply ends_bind; [apply ends_set_key|]. intros [? ?]. apply ends_ok. }
  destruct (c =? 38); cbn [negb].
  - destruct (match index_byte r 32 with Some (S i) => _ | _ => _ end) as [ref w] eqn:Q.
    assert (NW : ~ In 42 w).
    { intros H. apply NS. right. destruct (index_byte r 32) as [[|i]|]; injection Q as <- <-; try contradiction.
      apply In_trim in H. exact (In_skipn 42 (S i) r H). }
    apply ends_bind; [|intros [[? ?] ?]; apply ends_ok].
    destruct w as [|c' w].
    + apply ends_bind; [apply ends_set_key|]. intros [? ?]. apply ends_ok.
    + apply ends_bind; [apply ends_set_key|]. intros [? ?]. apply ends_bind; [apply ends_psv; auto|].
      intros [? ?]. apply ends_ok.
  - destruct (Z.eqb_spec c 42) as [->|]; [exfalso; apply NS; left; auto|].
    apply ends_bind; [apply ends_set_key|]. intros [? ?]. apply ends_bind; [apply ends_psv; auto|].
    intros [? ?]. apply ends_ok.
Qed.
Lemma ends_object p s d sc : ~ In 42 d -> ends (parseObject E G pick cf p s d sc).
Proof.
  intros NS. unfold parseObject. cbv zeta.
  destruct (match stack p with [] => new_root G pick p s TObject | n :: _ => (p, s, y_v n) end) as [[p1 s1] cur].
  destruct (splitKv d) as [[k v] b] eqn:Q. destruct (In_split_kv 42 d k v b Q) as [_ NV].
  assert (NV' : ~ In 42 v) by auto. clear NV Q.
  set (nokv := match k with [] => true | _ => negb b end). clearbody nokv.
  destruct (_ && _); [apply ends_ok|]. destruct (_ =? sc).
  - destruct nokv; [apply ends_ok|]. apply ends_bind; [apply ends_merge; auto|]. intros [[[e|] m] s2]; [apply ends_ok|].
    apply ends_bind; [|intros [[? ?] ?]; apply ends_ok]. destruct m; [apply ends_ok|]. destruct v as [|c v].
    + apply ends_bind; [apply ends_set_key|]. intros [? ?]; apply ends_ok.
    + apply ends_bind; [apply ends_set_key|]. intros [? ?]. apply ends_bind; [apply ends_psv; auto|]. intros [? ?]; apply ends_ok.
  - destruct (_ <? sc).
    + destruct k as [|c0 k].
      * destruct (_ || _); [apply ends_ok|]. destruct (StringOf E (hp s1 cur)). apply ends_ok.
      * apply ends_bind; [apply ends_merge; auto|]. intros [[[e|] m] s2]; [apply ends_ok|].
        destruct m; [apply ends_ok|]. apply ends_bind; [apply ends_sub; auto|]. intros [[? ?] ?]; apply ends_ok.
    + destruct (nokv || _); [apply ends_ok|]. destruct v as [|c v].
      * apply ends_bind; [apply ends_set_key|]. intros [? ?]; apply ends_ok.
      * apply ends_bind; [apply ends_merge; auto|]. intros [[[e|] m] s2]; [apply ends_ok|].
        destruct m; [apply ends_ok|]. apply ends_bind; [apply ends_set_key|]. intros [? ?].
        apply ends_bind; [apply ends_psv; auto|]. intros [? ?]; apply ends_ok.
Qed.
Lemma ends_array p s d sc : ~ In 42 d -> ends (parseArray E G pick cf p s d sc).
Proof.
  intros NS. unfold parseArray. cbv zeta. destruct (match d with [] => false | _ => _ end); [apply ends_ok|].
  destruct (match stack p with [] => new_root G pick p s TArray | n :: _ => (p, s, y_v n) end) as [[p1 s1] cur].
  set (iv := match trim d with [] => false | _ => true end). clearbody iv.
  set (s2 := if vt_eqb (c_dt (hp s1 cur)) TObject then Reset s1 cur TArray else s1). clearbody s2.
  destruct (vt_eqb (c_dt (hp s2 cur)) TArray).
  - destruct (SetIndexCached _ _ _ _ _ _) as [el s3]. destruct iv; [|apply ends_ok].
    destruct (splitKv (trim d)) as [[k v] b] eqn:Q. destruct (In_split_kv 42 _ k v b Q) as [NK NV].
    assert (NK' : ~ In 42 k) by (intros H; apply NS, In_trim; auto).
    assert (NV' : ~ In 42 v) by (intros H; apply NS, In_trim; auto).
    destruct b; cbn [negb].
    + destruct k as [|c0 k]; [apply ends_ok|]. destruct v as [|c v].
      * apply ends_bind; [apply ends_set_key|]. intros [? ?]; apply ends_ok.
      * apply ends_bind; [apply ends_set_key|]. intros [? ?]. apply ends_bind; [apply ends_psv; auto|].
        intros [? ?]; apply ends_ok.
    + apply ends_bind; [apply ends_psv; auto|]. intros [? ?]; apply ends_ok.
  - destruct iv; [|apply ends_ok]. destruct (StringOf E (hp s2 cur)). apply ends_ok.
Qed.
Lemma ends_line p s l sc : ~ In 42 l -> ends (parseLine E G pick cf p s l sc).
Proof.
  intros NS. unfold parseLine. pose proof (In_skipn 42 sc l) as T.
  destruct (skipn sc l) as [|c0 r0]; [discriminate|]. destruct (c0 =? 35); [apply ends_ok|]. cbv zeta.
  set (d := match index_hash (c0 :: r0) with Some (S (S i)) => _ | _ => _ end).
  assert (ND : ~ In 42 d).
  { intros H. apply NS, T. unfold d in H. destruct (index_hash (c0 :: r0)) as [[|[|i]]|]; auto. apply In_firstn in H. exact H. }
  clearbody d. destruct d as [|c d]; [apply ends_ok|]. apply ends_bind; [|intros [[? ?] ?]; apply ends_ok].
  destruct (c =? 45); [apply ends_array|apply ends_object]; auto. intros H; apply ND; right; auto.
Qed.
Lemma ends_run ls : Forall (fun l => ~ In 42 l) ls -> forall p s, ends (run E G pick cf p s ls).
Proof.
  induction 1 as [|l ls N F IH]; intros p s; cbn [run]; [apply ends_ok|].
  destruct (_ <? 2)%nat; [apply IH|]. apply ends_bind; [apply ends_line; auto|].
  intros [[[e|] p1] s1]; [apply ends_ok|apply IH].
Qed.
End Term.
