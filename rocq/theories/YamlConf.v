(** The YAML parser keeps the state invariant and touches nothing of the protected part. *)
From Verif Require Import Base Values Tactics HeapModel HeapSpec HeapBase HeapConf HeapGet YamlModel.

Section YConf.
Variables P PC : nat_set.
Variable E : env.
Variable G : nat -> nat.
Variable pick : st -> option nat.
Variable cf : nat.
Notation tr := (tr P PC).
Notation inv := (inv P PC).
Notation ok_loc := (ok_loc P).
Notation ok_ptr := (ok_ptr P).
Notation ok_cache := (ok_cache PC).

(** Everything the parser holds may be written. *)
Record okp (s : st) (p : yp) : Prop := {
  o_root : ok_ptr s (y_root p); o_cache : ok_cache s (y_cache p);
  o_stack : Forall (fun n => ok_loc s (y_v n)) (stack p);
  o_uses : Forall (fun u => ok_loc s (snd u)) (uses p) }.

Lemma okp_tr s s' p : tr s s' -> okp s p -> okp s' p.
Proof.
  intros T [A B C D]. constructor.
  - exact (ok_ptr_tr P PC _ _ _ T A).
  - exact (ok_cache_tr P PC _ _ _ T B).
  - eapply Forall_impl; [|exact C]. intros n. exact (ok_loc_tr P PC _ _ _ T).
  - eapply Forall_impl; [|exact D]. intros n. exact (ok_loc_tr P PC _ _ _ T).
Qed.
Lemma okp_fresh s : okp s fresh_parser.
Proof. constructor; [intros ? Q; discriminate|intros ? Q; discriminate|constructor|constructor]. Qed.
Lemma okp_reset s p : okp s (yreset p).
Proof. constructor; [intros ? Q; discriminate|intros ? Q; discriminate|constructor|constructor]. Qed.
Lemma okp_push s p b z x : okp s p -> ok_loc s x -> okp s (push_node p (mkNode b z x)).
Proof. intros [] O. constructor; auto. constructor; auto. Qed.
Lemma okp_first s p b : okp s p -> okp s (set_first p b). Proof. intros []; constructor; auto. Qed.
Lemma okp_last s p b : okp s p -> okp s (set_last p b). Proof. intros []; constructor; auto. Qed.
Lemma okp_stack s p l : okp s p -> Forall (fun n => ok_loc s (y_v n)) l -> okp s (set_stack p l).
Proof. intros []; constructor; auto. Qed.
Lemma okp_use s p k x : okp s p -> ok_loc s x -> okp s (set_uses p (set_use (uses p) k x)).
Proof.
  intros [A B C D] O. constructor; auto. cbn [uses set_uses]. induction D as [|[k' v'] l H D IH]; cbn [set_use].
  - constructor; auto.
  - destruct (beq k' k); constructor; auto.
Qed.
Lemma get_use_ok s p k x : okp s p -> get_use (uses p) k = Some x -> ok_loc s x.
Proof.
  intros [A B C D]. induction D as [|[k' v'] l H D IH]; cbn [get_use]; [discriminate|].
  destruct (beq k' k); [|exact IH]. intros Q. injection Q as <-. exact H.
Qed.
Lemma Forall_skipn {A} (Q : A -> Prop) n l : Forall Q l -> Forall Q (skipn n l).
Proof. revert l; induction n as [|n IH]; intros l F; [exact F|]. destruct F; [constructor|]. apply IH; auto. Qed.
Lemma Forall_pop (Q : ynode -> Prop) n l : Forall Q l -> Forall Q (popLast l n).
Proof. apply Forall_skipn. Qed.
Lemma Forall_unwind (Q : ynode -> Prop) l z : Forall Q l -> Forall Q (unwind l z).
Proof. induction 1 as [|x l H F IH]; cbn [unwind]; [constructor|]. repeat match goal with |- context [if ?b then _ else _] => destruct b end; auto; constructor; auto. Qed.

(** Results. *)
Definition fine (s : st) (r : yres) : Prop :=
  match r with Ok (_, p', s') => tr s s' /\ okp s' p' | _ => True end.
Definition fine2 (s : st) (r : res (yp * st)) : Prop :=
  match r with Ok (p', s') => tr s s' /\ okp s' p' | _ => True end.
Definition fine3 (s : st) (r : res (nat * yp * st)) : Prop :=
  match r with Ok (x, p', s') => tr s s' /\ okp s' p' /\ ok_loc s' x | _ => True end.

Lemma fine_ok s e p : inv s -> okp s p -> fine s (Ok (e, p, s)).
Proof. intros I O. split; auto. apply tr_refl; auto. Qed.
Lemma fine2_tr s s' p : tr s s' -> okp s p -> fine2 s (Ok (p, s')).
Proof. intros T O. split; auto. exact (okp_tr _ _ _ T O). Qed.

Lemma new_root_fine p s t : inv s -> okp s p ->
  let '(p1, s1, r) := new_root G pick p s t in tr s s1 /\ okp s1 p1 /\ ok_loc s1 r.
Proof.
  intros I O. unfold new_root. destruct (use_cache p).
  - pose proof (tr_getCache P PC s (pick s) I) as [T C]. destruct (getCache s (pick s)) as [k s1]. cbn [fst snd] in T, C.
    pose proof (tr_getValue P PC G s1 (Some k) t (tr_inv _ _ _ _ T) C) as (T2 & OL & _).
    destruct (getValue G s1 (Some k) t) as [r s2]. cbn [fst snd] in T2, OL.
    pose proof (tr_trans P PC _ _ _ T T2) as T3. split; [exact T3|]. split; [|exact OL].
    apply okp_push; [|exact OL]. destruct (okp_tr _ _ _ T3 O) as [A B D F]. constructor; cbn; auto.
    + intros l Q. injection Q as <-. exact OL.
    + exact (ok_cache_tr P PC _ _ _ T2 C).
  - pose proof (tr_NewCacheValue P PC G s (pick s) t I) as [T OL].
    destruct (NewCacheValue G s (pick s) t) as [r s1]. cbn [fst snd] in T, OL.
    split; [exact T|]. split; [|exact OL]. apply okp_push; [|exact OL].
    destruct (okp_tr _ _ _ T O) as [A B D F]. constructor; cbn; auto.
    + intros l Q. injection Q as <-. exact OL.
    + apply (own_ok P PC); auto. apply T.
Qed.

Lemma psv_fine d : forall p s t v, inv s -> okp s p -> ok_loc s t -> fine2 s (parseStringValue E G cf d p s t v).
Proof.
  induction d as [|d IH]; intros p s t v I O OT; cbn [parseStringValue];
  (destruct (beq v b_true); [apply fine2_tr; auto; apply tr_SetBool; auto|]);
  (destruct (beq v b_false); [apply fine2_tr; auto; apply tr_SetBool; auto|]);
  (destruct (x_parsefloat E v); [apply fine2_tr; auto; apply tr_SetDouble; auto|]);
  (destruct v as [|c v]; [exact Logic.I|]); cbv zeta; set (w := c :: v) in *; clearbody w;
  (destruct (_ && _); [apply fine2_tr; auto; apply tr_refl; auto|]);
  (destruct (_ && _); [apply fine2_tr; auto; apply tr_refl; auto|]).
  - destruct (c =? 38); [apply fine2_tr; auto; apply tr_SetString; auto|]. destruct (c =? 42).
    + destruct (get_use (uses p) (anchor_name w)) as [u|] eqn:GU; [|apply fine2_tr; auto; apply tr_SetString; auto].
      destruct (CopyFrom G cf s t u (y_cache p)) as [s1| | |] eqn:CF; cbn [bind fine2]; auto.
      apply (tr_CopyFrom P PC G cf) in CF; auto; [|exact (get_use_ok _ _ _ _ O GU)|apply O]. apply fine2_tr; auto.
    + apply fine2_tr; auto; apply tr_SetString; auto.
  - destruct (c =? 38).
    + destruct (index_byte w 32) as [i|]; [|apply fine2_tr; auto; apply tr_SetString; auto].
      pose proof (okp_use s p (skipn 1 (firstn i w)) t O OT) as O1.
      destruct (trim (skipn (S i) w)); [apply fine2_tr; auto; apply tr_SetString; auto|]. apply IH; auto.
    + destruct (c =? 42).
      * destruct (get_use (uses p) (anchor_name w)) as [u|] eqn:GU; [|apply fine2_tr; auto; apply tr_SetString; auto].
        destruct (CopyFrom G cf s t u (y_cache p)) as [s1| | |] eqn:CF; cbn [bind fine2]; auto.
        apply (tr_CopyFrom P PC G cf) in CF; auto; [|exact (get_use_ok _ _ _ _ O GU)|apply O]. apply fine2_tr; auto.
      * apply fine2_tr; auto; apply tr_SetString; auto.
Qed.

Lemma merge_fine p s l k v : inv s -> okp s p -> ok_loc s l ->
  match mergeObj G cf p s l k v with Ok (_, _, s') => tr s s' | _ => True end.
Proof.
  intros I O OL. unfold mergeObj. pose proof (tr_refl P PC s I) as R. destruct (beq k b_merge); [|exact R].
  destruct v as [|c v]; [exact R|]. destruct (c =? 42); [|exact R]. destruct (anchor_name (c :: v)) as [|a nm] eqn:AN; [exact R|].
  rewrite <- AN. destruct (get_use (uses p) (anchor_name (c :: v))) as [u|] eqn:GU; [|exact R].
  destruct (vt_eqb _ _); [|exact R].
  destruct (AddFrom G cf s l u (y_cache p)) as [s1| | |] eqn:AF; cbn [bind]; auto.
  apply (tr_AddFrom P PC G cf) in AF; auto; [exact (get_use_ok _ _ _ _ O GU)|apply O].
Qed.

(** A keyed entry and its value. *)
Lemma set_fine s p l k t : inv s -> okp s p -> ok_loc s l ->
  match SetKeyCached E G s l k t (y_cache p) with Ok (x, s1) => tr s s1 /\ ok_loc s1 x | _ => True end.
Proof.
  intros I O OL. destruct (SetKeyCached E G s l k t (y_cache p)) as [[x s1]| | |] eqn:H; auto.
  apply (tr_SetKeyCached P PC E G) in H; auto. apply O.
Qed.
Lemma set_psv_fine s p l k w : inv s -> okp s p -> ok_loc s l ->
  fine3 s (do (x, s1) <- SetKeyCached E G s l k TString (y_cache p);
           do (p2, s2) <- parseStringValue E G cf 1 p s1 x w; Ok (x, p2, s2)).
Proof.
  intros I O OL. pose proof (set_fine s p l k TString I O OL) as H.
  destruct (SetKeyCached E G s l k TString (y_cache p)) as [[x s1]| | |]; cbn [bind]; auto; [|exact Logic.I..].
  destruct H as [T OX]. pose proof (psv_fine 1 p s1 x w (tr_inv _ _ _ _ T) (okp_tr _ _ _ T O) OX) as H.
  destruct (parseStringValue E G cf 1 p s1 x w) as [[p2 s2]| | |]; cbn [bind]; [|exact Logic.I..].
  destruct H as [T2 O2]. split; [exact (tr_trans P PC _ _ _ T T2)|]. split; [exact O2|]. exact (ok_loc_tr P PC _ _ _ T2 OX).
Qed.
Lemma set_obj_fine s p l k t : inv s -> okp s p -> ok_loc s l ->
  fine3 s (do (x, s1) <- SetKeyCached E G s l k t (y_cache p); Ok (x, p, s1)).
Proof.
  intros I O OL. pose proof (set_fine s p l k t I O OL) as H.
  destruct (SetKeyCached E G s l k t (y_cache p)) as [[x s1]| | |]; cbn [bind]; auto; [|exact Logic.I..].
  destruct H as [T OX]. split; auto. split; auto. exact (okp_tr _ _ _ T O).
Qed.
Lemma sub_fine p s cur k v : inv s -> okp s p -> ok_loc s cur -> fine3 s (sub_value E G cf p s cur k v).
Proof.
  intros I O OC. unfold sub_value. destruct v as [|c r]; [apply set_obj_fine; auto|].
  destruct (negb (c =? 38)).
  - destruct (c =? 42); [|apply set_psv_fine; auto].
    destruct (get_use (uses p) r) as [u|] eqn:GU.
    + destruct (clone G cf s (Some u) (y_cache p)) as [[x s1]| | |] eqn:CL; cbn [bind]; [|exact Logic.I..].
      apply (tr_clone P PC G cf) in CL as [T OX]; auto; [|apply ok_ptr_some; exact (get_use_ok _ _ _ _ O GU)|apply O].
      pose proof (tr_SetKeyValue P PC E G s1 cur k (Some x) (tr_inv _ _ _ _ T) (ok_loc_tr P PC _ _ _ T OC) (proj2 (ok_ptr_some P s1 x) OX)) as T2.
      pose proof (tr_trans P PC _ _ _ T T2) as T3. split; [exact T3|]. split; [exact (okp_tr _ _ _ T3 O)|].
      exact (ok_loc_tr P PC _ _ _ T2 OX).
    + pose proof (set_fine s p cur k TString I O OC) as H.
      destruct (SetKeyCached E G s cur k TString (y_cache p)) as [[x s1]| | |]; cbn [bind]; auto; [|exact Logic.I..].
      destruct H as [T OX]. pose proof (tr_SetString P PC s1 x (c :: r) (tr_inv _ _ _ _ T) OX) as T2.
      pose proof (tr_trans P PC _ _ _ T T2) as T3. split; [exact T3|]. split; [exact (okp_tr _ _ _ T3 O)|].
      exact (ok_loc_tr P PC _ _ _ T2 OX).
  - destruct (match index_byte r 32 with Some (S i) => (firstn (S i) r, trim (skipn (S i) r)) | _ => (r, []) end) as [ref w].
    assert (H : fine3 s (match w with
          | [] => do (x, s1) <- SetKeyCached E G s cur k TObject (y_cache p); Ok (x, p, s1)
          | _ =>
              do (x, s1) <- SetKeyCached E G s cur k TString (y_cache p);
              do (p2, s2) <- parseStringValue E G cf 1 p s1 x w;
              Ok (x, p2, s2)
          end)).
    { destruct w; [apply set_obj_fine; auto|apply set_psv_fine; auto]. }
    match type of H with fine3 s ?m => destruct m as [[[x p2] s2]| | |] end; cbn [bind]; [|exact Logic.I..].
    destruct H as (T & O2 & OX). split; auto. split; auto. apply okp_use; auto.
Qed.

Lemma cur_fine p s t : inv s -> okp s p ->
  let '(p1, s1, cur) := match stack p with [] => new_root G pick p s t | n :: _ => (p, s, y_v n) end in
  tr s s1 /\ okp s1 p1 /\ ok_loc s1 cur.
Proof.
  intros I O. pose proof (new_root_fine p s t I O) as H. destruct (stack p) as [|n l] eqn:Q; [exact H|].
  split; [apply tr_refl; auto|]. split; auto. destruct O as [_ _ C _]. rewrite Q in C. inversion C; auto.
Qed.

Lemma fine_from s s1 e p2 s2 : tr s s1 -> tr s1 s2 -> okp s2 p2 -> fine s (Ok (e, p2, s2)).
Proof. intros T1 T2 O. split; auto. exact (tr_trans P PC _ _ _ T1 T2). Qed.
Lemma fine_here s s1 e p2 : tr s s1 -> okp s1 p2 -> fine s (Ok (e, p2, s1)).
Proof. intros T O. split; auto. Qed.
Lemma fine3_push s s1 (r : res (nat * yp * st)) b z : tr s s1 -> fine3 s1 r ->
  fine s (do (x, p4, s4) <- r; Ok (None, push_node p4 (mkNode b z x), s4)).
Proof.
  intros T H. destruct r as [[[x p4] s4]| | |]; cbn [bind]; [|exact Logic.I..]. destruct H as (T4 & O4 & OX).
  apply (fine_from s s1); auto. apply okp_push; auto.
Qed.

Lemma arr_fine p s line sc : inv s -> okp s p -> fine s (parseArray E G pick cf p s line sc).
Proof.
  intros I O. unfold parseArray. destruct (match line with [] => _ | _ => _ end); [apply fine_ok; auto|]. cbv zeta.
  pose proof (cur_fine p s TArray I O) as H.
  destruct (match stack p with [] => new_root G pick p s TArray | n :: _ => (p, s, y_v n) end) as [[p1 s1] cur].
  destruct H as (T1 & O1 & OC). assert (I1 : inv s1) by apply T1.
  pose proof (tr_Reset P PC s1 cur TArray I1 OC) as TR.
  assert (T2 : tr s (if vt_eqb (c_dt (hp s1 cur)) TObject then Reset s1 cur TArray else s1)).
  { destruct (vt_eqb _ _); auto. exact (tr_trans P PC _ _ _ T1 TR). }
  assert (T12 : tr s1 (if vt_eqb (c_dt (hp s1 cur)) TObject then Reset s1 cur TArray else s1)).
  { destruct (vt_eqb _ _); auto. apply tr_refl; auto. }
  set (s2 := if vt_eqb (c_dt (hp s1 cur)) TObject then Reset s1 cur TArray else s1) in *. clearbody s2.
  assert (I2 : inv s2) by apply T2. pose proof (okp_tr _ _ _ T12 O1) as O2. pose proof (ok_loc_tr P PC _ _ _ T12 OC) as OC2.
  clear T12 TR T1 O1 OC I1.
  destruct (vt_eqb (c_dt (hp s2 cur)) TArray).
  - pose proof (fun t => tr_SetIndexCached P PC G s2 cur (-1) t (y_cache p1) I2 OC2 (o_cache _ _ O2)) as H.
    destruct (trim line) as [|c d] eqn:TD.
    + specialize (H TArray). destruct (SetIndexCached G s2 cur (-1) TArray (y_cache p1)) as [el s3]. cbn [fst snd] in H.
      destruct H as [T3 OE]. apply (fine_from s s2); auto. apply okp_push; auto. exact (okp_tr _ _ _ T3 O2).
    + specialize (H TString). destruct (SetIndexCached G s2 cur (-1) TString (y_cache p1)) as [el s3]. cbn [fst snd] in H.
      destruct H as [T3 OE]. pose proof (okp_tr _ _ _ T3 O2) as O3. pose proof (tr_trans P PC _ _ _ T2 T3) as T23.
      assert (I3 : inv s3) by apply T3.
      destruct (splitKv (c :: d)) as [[k v] sp]. destruct (negb sp).
      * pose proof (psv_fine 1 (push_node p1 (mkNode false sc el)) s3 el k I3 (okp_push _ _ _ _ _ O3 OE) OE) as H.
        destruct (parseStringValue E G cf 1 _ s3 el k) as [[p4 s4]| | |]; cbn [bind]; [|exact Logic.I..].
        destruct H as [T4 O4]. exact (fine_from s s3 _ _ _ T23 T4 O4).
      * destruct k as [|kc k]; [apply (fine_here s s3); auto; apply okp_push; auto|].
        pose proof (tr_Reset P PC s3 el TObject I3 OE) as T4. set (s4 := Reset s3 el TObject) in *. clearbody s4.
        assert (I4 : inv s4) by apply T4. pose proof (ok_loc_tr P PC _ _ _ T4 OE) as OE4.
        pose proof (tr_trans P PC _ _ _ T23 T4) as T24.
        set (p4 := set_first (push_node p1 (mkNode true sc el)) true).
        assert (O4 : okp s4 p4).
        { unfold p4. apply okp_first, okp_push; auto. exact (okp_tr _ _ _ T4 O3). }
        destruct v as [|vc v].
        -- pose proof (set_obj_fine s4 p4 el (kc :: k) TNull I4 O4 OE4) as H.
           pose proof (fine3_push s s4 _ true sc T24 H) as F.
           destruct (SetKeyCached E G s4 el (kc :: k) TNull (y_cache p4)) as [[x s5]| | |]; exact F.
        -- pose proof (set_psv_fine s4 p4 el (kc :: k) (vc :: v) I4 O4 OE4) as H.
           pose proof (fine3_push s s4 _ true sc T24 H) as F.
           destruct (SetKeyCached E G s4 el (kc :: k) TString (y_cache p4)) as [[x s5]| | |]; [|exact F..]. cbn [bind] in *.
           destruct (parseStringValue E G cf 1 p4 s5 x (vc :: v)) as [[p6 s6]| | |]; exact F.
  - destruct (match trim line with [] => false | _ => true end); [|apply (fine_here s s2); auto].
    pose proof (tr_StringOf P PC E s2 cur I2 OC2) as T3. destruct (StringOf E (hp s2 cur)) as [str c]. cbn [snd] in T3.
    pose proof (tr_SetString P PC (set_cell s2 cur c) cur (str ++ [32] ++ trim line) (tr_inv _ _ _ _ T3) (ok_loc_tr P PC _ _ _ T3 OC2)) as T4.
    pose proof (tr_trans P PC _ _ _ T3 T4) as T34. apply (fine_from s s2); auto. exact (okp_tr _ _ _ T34 O2).
Qed.

Lemma obj_fine p s line sc : inv s -> okp s p -> fine s (parseObject E G pick cf p s line sc).
Proof.
  intros I O. unfold parseObject. cbv zeta.
  set (lsp := match stack p with [] => last_sp p | n :: _ => if first_el p && y_map n then last_sp p + 2 else last_sp p end). clearbody lsp.
  set (nr := match stack p with [] => true | _ => false end). clearbody nr.
  pose proof (cur_fine p s TObject I O) as H.
  destruct (match stack p with [] => new_root G pick p s TObject | n :: _ => (p, s, y_v n) end) as [[p1 s1] cur].
  destruct H as (T1 & O0 & OC). assert (I1 : inv s1) by apply T1.
  pose proof (okp_first s1 p1 false O0) as O1. set (p1' := set_first p1 false) in *. clearbody p1'. clear O0 p1. rename p1' into p1.
  destruct (splitKv line) as [[k v] sp].
  set (nokv := match k with [] => true | _ => negb sp end). clearbody nokv.
  destruct (nr && nokv); [apply (fine_here s s1); auto|].
  destruct (lsp =? sc).
  { destruct nokv; [apply (fine_here s s1); auto|].
    pose proof (merge_fine p1 s1 cur k v I1 O1 OC) as M.
    destruct (mergeObj G cf p1 s1 cur k v) as [[[[e|] mg] s2]| | |]; cbn [bind]; [| |exact Logic.I..].
    - apply (fine_from s s1); auto. exact (okp_tr _ _ _ M O1).
    - pose proof (okp_tr _ _ _ M O1) as O2. pose proof (ok_loc_tr P PC _ _ _ M OC) as OC2.
      pose proof (tr_trans P PC _ _ _ T1 M) as T2.
      apply (fine3_push s s2); auto. destruct mg; [split; [apply tr_refl; apply M|auto]|].
      destruct v; [apply set_obj_fine; auto; apply M|apply set_psv_fine; auto; apply M]. }
  destruct (lsp <? sc).
  { destruct k as [|kc k].
    - destruct (_ || _); [apply (fine_here s s1); auto|].
      pose proof (tr_StringOf P PC E s1 cur I1 OC) as T3. destruct (StringOf E (hp s1 cur)) as [str c]. cbn [snd] in T3.
      pose proof (tr_SetString P PC (set_cell s1 cur c) cur (str ++ [32; 58] ++ v) (tr_inv _ _ _ _ T3) (ok_loc_tr P PC _ _ _ T3 OC)) as T4.
      pose proof (tr_trans P PC _ _ _ T3 T4) as T34. apply (fine_from s s1); auto. exact (okp_tr _ _ _ T34 O1).
    - assert (T12 : tr s1 (if vt_eqb (c_dt (hp s1 cur)) TObject then s1 else Reset s1 cur TObject)).
      { destruct (vt_eqb _ _); [apply tr_refl; auto|apply tr_Reset; auto]. }
      set (s2 := if vt_eqb (c_dt (hp s1 cur)) TObject then s1 else Reset s1 cur TObject) in *. clearbody s2.
      pose proof (okp_tr _ _ _ T12 O1) as O2. pose proof (ok_loc_tr P PC _ _ _ T12 OC) as OC2.
      pose proof (tr_trans P PC _ _ _ T1 T12) as T2. assert (I2 : inv s2) by apply T2.
      pose proof (merge_fine p1 s2 cur (kc :: k) v I2 O2 OC2) as M.
      destruct (mergeObj G cf p1 s2 cur (kc :: k) v) as [[[[e|] mg] s3]| | |]; cbn [bind]; [| |exact Logic.I..].
      + apply (fine_from s s2); auto. exact (okp_tr _ _ _ M O2).
      + pose proof (okp_tr _ _ _ M O2) as O3. pose proof (ok_loc_tr P PC _ _ _ M OC2) as OC3.
        pose proof (tr_trans P PC _ _ _ T2 M) as T3.
        destruct mg; [apply (fine_here s s3); auto; apply okp_push; auto|].
        apply (fine3_push s s3); auto. apply sub_fine; auto. apply M. }
  destruct (_ || _); [apply (fine_here s s1); auto|].
  destruct v as [|vc v].
  - pose proof (fine3_push s s1 _ false sc T1 (set_obj_fine s1 p1 cur k TObject I1 O1 OC)) as F.
    destruct (SetKeyCached E G s1 cur k TObject (y_cache p1)) as [[x s5]| | |]; exact F.
  - pose proof (merge_fine p1 s1 cur k (vc :: v) I1 O1 OC) as M.
    destruct (mergeObj G cf p1 s1 cur k (vc :: v)) as [[[[e|] mg] s2]| | |]; cbn [bind]; [| |exact Logic.I..].
    + apply (fine_from s s1); auto. exact (okp_tr _ _ _ M O1).
    + pose proof (okp_tr _ _ _ M O1) as O2. pose proof (ok_loc_tr P PC _ _ _ M OC) as OC2.
      pose proof (tr_trans P PC _ _ _ T1 M) as T2.
      destruct mg; [apply (fine_here s s2); auto; apply okp_push; auto|].
      pose proof (fine3_push s s2 _ false sc T2 (set_psv_fine s2 p1 cur k (vc :: v) (tr_inv _ _ _ _ M) O2 OC2)) as F.
      destruct (SetKeyCached E G s2 cur k TString (y_cache p1)) as [[x s5]| | |]; [|exact F..]. cbn [bind] in *.
      destruct (parseStringValue E G cf 1 p1 s5 x (vc :: v)) as [[p6 s6]| | |]; exact F.
Qed.

Lemma line_fine p s line sc : inv s -> okp s p -> fine s (parseLine E G pick cf p s line sc).
Proof.
  intros I O. unfold parseLine. destruct (skipn sc line) as [|c d0]; [exact Logic.I|].
  destruct (c =? 35); [apply fine_ok; auto|]. cbv zeta.
  destruct (match index_hash (c :: d0) with Some (S (S i)) => _ | _ => _ end) as [|c' d]; [apply fine_ok; auto|].
  set (lsp := match stack p with [] => last_sp p | n :: _ => if first_el p && y_map n then last_sp p + 2 else last_sp p end). clearbody lsp.
  assert (O1 : okp s (if Z.of_nat sc <? lsp then set_stack p (unwind (popLast (stack p) 2) (Z.of_nat sc))
     else if lsp =? Z.of_nat sc then set_stack p (popLast (stack p) 1) else p)).
  { destruct (_ <? _); [apply okp_stack; auto; apply Forall_unwind, Forall_pop, O|].
    destruct (_ =? _); auto. apply okp_stack; auto. apply Forall_pop, O. }
  set (p1 := if Z.of_nat sc <? lsp then _ else _) in *. clearbody p1.
  assert (FB : forall r, fine s r -> fine s (do (e, p2, s2) <- r; Ok (e, set_last p2 (Z.of_nat sc), s2))).
  { intros [[[e p2] s2]| | |] F; cbn [bind]; [|exact Logic.I..]. destruct F as [T O2]. split; auto. apply okp_last; auto. }
  apply FB. destruct (_ =? _); [apply arr_fine; auto|apply obj_fine; auto].
Qed.
Lemma loop_fine n : forall p s data i, inv s -> okp s p -> fine s (yloop E G pick cf n p s data i).
Proof.
  induction n as [|n IH]; intros p s data i I O; [exact Logic.I|]. cbn [yloop].
  destruct (_ <? 2)%nat.
  - destruct (_ =? _)%nat; [apply fine_ok; auto|apply IH; auto].
  - pose proof (line_fine p s (line_of (skipn i data)) (lead (line_of (skipn i data))) I O) as F.
    destruct (parseLine E G pick cf p s _ _) as [[[[e|] p1] s1]| | |]; cbn [bind]; [exact F| |exact Logic.I..].
    destruct F as [T O1]. destruct (_ <=? _)%nat; [split; auto|].
    specialize (IH p1 s1 data (S (Nat.min (i + List.length (line_of (skipn i data))) (List.length data))) (tr_inv _ _ _ _ T) O1).
    destruct (yloop E G pick cf n p1 s1 data _) as [[[e p2] s2]| | |]; [|exact Logic.I..].
    destruct IH as [T2 O2]. exact (fine_from s s1 _ _ _ T T2 O2).
Qed.
Lemma parse_fine n p s data : inv s -> okp s p -> fine s (yparse E G pick cf n p s data).
Proof.
  intros I O. unfold yparse. destruct data; [apply fine_ok; auto|]. apply loop_fine; auto. destruct O; constructor; auto.
Qed.

Lemma tr_New n p s b use e r p' s' : inv s -> okp s p ->
  NewValueFromYaml E G pick cf n p s b use = Ok (e, r, p', s') -> tr s s' /\ okp s' p' /\ ok_ptr s' r.
Proof.
  intros I O H. unfold NewValueFromYaml in H.
  set (p0 := mkYp _ _ _ _ _ _ _ _) in H. assert (O0 : okp s p0) by (destruct O; constructor; auto). clearbody p0.
  pose proof (parse_fine n p0 s b I O0) as F. destruct (yparse E G pick cf n p0 s b) as [[[e1 p1] s1]| | |]; cbn [bind] in H; try discriminate.
  destruct F as [T O1]. injection H as <- <- <- <-. split; auto. split; [apply okp_reset|].
  destruct e1; [intros ? Q; discriminate|]. apply O1.
Qed.
Lemma tr_Load n p s l b e p' s' : inv s -> okp s p -> ok_loc s l ->
  LoadFromYaml E G pick cf n p s l b = Ok (e, p', s') -> tr s s' /\ okp s' p'.
Proof.
  intros I O OL H. unfold LoadFromYaml in H. apply bind_ok in H as (s1 & CL & H).
  pose proof (tr_Clear P PC s l s1 I OL CL) as T1. pose proof (ok_loc_tr P PC _ _ _ T1 OL) as OL1.
  destruct (drop_ws b) as [|c d].
  - injection H as <- <- <-. split; auto. exact (okp_tr _ _ _ T1 O).
  - cbv zeta in H. set (t := if c =? 45 then TArray else TObject) in *. clearbody t.
    pose proof (tr_Reset P PC s1 l t (tr_inv _ _ _ _ T1) OL1) as T2. set (s2 := Reset s1 l t) in *. clearbody s2.
    pose proof (tr_trans P PC _ _ _ T1 T2) as T12. pose proof (ok_loc_tr P PC _ _ _ T2 OL1) as OL2.
    set (p1 := mkYp _ _ _ _ _ _ _ _) in H.
    assert (O1 : okp s2 p1).
    { destruct (okp_tr _ _ _ T12 O). constructor; auto.
      - intros x Q. injection Q as <-. exact OL2.
      - apply (own_ok P PC); auto. apply T2.
      - constructor; auto. }
    clearbody p1. pose proof (parse_fine n p1 s2 (c :: d) (tr_inv _ _ _ _ T2) O1) as F.
    destruct (yparse E G pick cf n p1 s2 (c :: d)) as [[[e1 p2] s3]| | |]; cbn [bind] in H; try discriminate.
    injection H as <- <- <-. destruct F as [T3 O3]. split; [exact (tr_trans P PC _ _ _ T12 T3)|apply okp_reset].
Qed.
End YConf.
