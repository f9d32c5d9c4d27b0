(** The result of a parse does not depend on the state in which an earlier parse left the parser. *)
From Verif Require Import Base Values Tactics HeapModel YamlModel YamlSpec.

Definition no_map (l : list ynode) : Prop := Forall (fun n => y_map n = false) l.

(** Equal but for [ifFirstObjEle], which may differ while no node is marked, and [lastOpifMerge]. *)
Record sim (p q : yp) : Prop := {
  m_uc : use_cache p = use_cache q; m_sp : last_sp p = last_sp q; m_root : y_root p = y_root q;
  m_cache : y_cache p = y_cache q; m_stack : stack p = stack q; m_uses : uses p = uses q;
  m_first : first_el p = first_el q \/ no_map (stack p) }.

Definition rel {A} (R : A -> A -> Prop) (x y : res A) : Prop :=
  match x, y with
  | Ok a, Ok b => R a b
  | Err e, Err e' => e = e'
  | Panic, Panic | OutOfFuel, OutOfFuel => True
  | _, _ => False
  end.
Lemma rel_bind {A B} (R : A -> A -> Prop) (Q : B -> B -> Prop) x y f g :
  rel R x y -> (forall a b, R a b -> rel Q (f a) (g b)) -> rel Q (bind x f) (bind y g).
Proof. destruct x, y; cbn [rel bind]; try contradiction; auto. Qed.
Lemma rel_same {A B} (Q : B -> B -> Prop) (x : res A) f g :
  (forall a, rel Q (f a) (g a)) -> rel Q (bind x f) (bind x g).
Proof. intros H. destruct x; cbn [rel bind]; auto. Qed.

(** Both parsers got new uses, same heap. *)
Definition up (p q : yp) (a b : yp * st) : Prop :=
  snd a = snd b /\ exists u, fst a = set_uses p u /\ fst b = set_uses q u.
Definition up3 (p q : yp) (a b : nat * yp * st) : Prop :=
  snd a = snd b /\ fst (fst a) = fst (fst b) /\ exists u, snd (fst a) = set_uses p u /\ snd (fst b) = set_uses q u.
Definition done (a b : option gerr * yp * st) : Prop :=
  fst (fst a) = fst (fst b) /\ sim (snd (fst a)) (snd (fst b)) /\ snd a = snd b.

Lemma set_uses_same p : p = set_uses p (uses p). Proof. destruct p; reflexivity. Qed.
Lemma up_refl p q s : uses p = uses q -> up p q (p, s) (q, s).
Proof.
  intros U. split; [reflexivity|]. exists (uses p). cbn [fst]. split; [apply set_uses_same|]. rewrite U. apply set_uses_same.
Qed.
Lemma up3_refl p q x s : uses p = uses q -> up3 p q (x, p, s) (x, q, s).
Proof.
  intros U. split; [reflexivity|]. split; [reflexivity|]. exists (uses p). cbn [fst snd].
  split; [apply set_uses_same|]. rewrite U. apply set_uses_same.
Qed.

Lemma sim_uses p q u : sim p q -> sim (set_uses p u) (set_uses q u).
Proof. intros []. constructor; auto. Qed.
Lemma sim_last p q z : sim p q -> sim (set_last p z) (set_last q z).
Proof. intros []. constructor; auto. Qed.
Lemma sim_first p q b : sim p q -> sim (set_first p b) (set_first q b).
Proof. intros []. constructor; auto. Qed.
Lemma sim_sub p q l : sim p q -> (no_map (stack p) -> no_map l) -> sim (set_stack p l) (set_stack q l).
Proof. intros [] H. constructor; cbn; auto. destruct m_first0; auto. Qed.
Lemma sim_push p q sp x : sim p q -> sim (push_node p (mkNode false sp x)) (push_node q (mkNode false sp x)).
Proof.
  intros [A B C D U F Q]. constructor; cbn; auto; [congruence|]. destruct Q; auto. right. constructor; auto.
Qed.
Lemma sim_push_first p q n : sim p q -> first_el p = first_el q -> sim (push_node p n) (push_node q n).
Proof. intros [] Q. constructor; cbn; auto. congruence. Qed.

Lemma no_map_skip n l : no_map l -> no_map (skipn n l).
Proof. revert l; induction n as [|n IH]; intros [|x l] H; cbn [skipn]; auto. apply IH. inversion H; auto. Qed.
Lemma no_map_unwind z l : no_map l -> no_map (unwind l z).
Proof.
  induction l as [|x l IH]; intros H; cbn [unwind]; auto. destruct l as [|y l]; auto.
  destruct (y_sp x <? z); auto. apply IH. inversion H; auto.
Qed.

Section Sim.
Variable E : env.
Variable G : nat -> nat.
Variable pick : st -> option nat.
Variable cf : nat.

Lemma sim_psv d : forall p q s t v, uses p = uses q -> y_cache p = y_cache q ->
  rel (up p q) (parseStringValue E G cf d p s t v) (parseStringValue E G cf d q s t v).
Proof.
  induction d as [|d IH]; intros p q s t v U C; cbn [parseStringValue];
    (destruct (beq v b_true); [apply up_refl; auto|]); (destruct (beq v b_false); [apply up_refl; auto|]);
    (destruct (x_parsefloat E v); [apply up_refl; auto|]); (destruct v as [|c v]; [exact I|]);
    cbv zeta; (destruct (_ && _); [apply up_refl; auto|]); (destruct (_ && _); [apply up_refl; auto|]);
    rewrite <- U, <- C.
  - destruct (c =? 38); [apply up_refl; auto|]. destruct (c =? 42); [|apply up_refl; auto].
    destruct (get_use (uses p) (anchor_name (c :: v))); [|apply up_refl; auto].
    apply rel_same. intros s1. apply up_refl; auto.
  - destruct (c =? 38).
    + destruct (index_byte (c :: v) 32) as [i|]; [|apply up_refl; auto].
      set (u := set_use (uses p) (skipn 1 (firstn i (c :: v))) t).
      destruct (trim (skipn (S i) (c :: v))) as [|c' w].
      * split; [reflexivity|exists u; split; reflexivity].
      * assert (R := IH (set_uses p u) (set_uses q u) s t (c' :: w) eq_refl C). revert R.
        destruct (parseStringValue E G cf d (set_uses p u) s t (c' :: w)) as [a|?| |];
          destruct (parseStringValue E G cf d (set_uses q u) s t (c' :: w)) as [b|?| |]; cbn [rel]; auto.
    + destruct (c =? 42); [|apply up_refl; auto].
      destruct (get_use (uses p) (anchor_name (c :: v))); [|apply up_refl; auto].
      apply rel_same. intros s1. apply up_refl; auto.
Qed.

Lemma sim_merge p q s l k v : sim p q -> mergeObj G cf p s l k v = mergeObj G cf q s l k v.
Proof. intros []. unfold mergeObj. rewrite m_cache0, m_uses0. reflexivity. Qed.

Lemma sim_sub_value p q s l k v : sim p q ->
  rel (up3 p q) (sub_value E G cf p s l k v) (sub_value E G cf q s l k v).
Proof.
  intros []. unfold sub_value. rewrite <- m_cache0, <- m_uses0.
  assert (PSV : forall w, rel (up3 p q)
    (do (x, s1) <- SetKeyCached E G s l k TString (y_cache p);
     do (p2, s2) <- parseStringValue E G cf 1 p s1 x w; Ok (x, p2, s2))
    (do (x, s1) <- SetKeyCached E G s l k TString (y_cache p);
     do (p2, s2) <- parseStringValue E G cf 1 q s1 x w; Ok (x, p2, s2))).
  { intros w. apply rel_same. intros [x s1]. eapply rel_bind; [apply (sim_psv 1 p q s1 x w); auto|].
    intros [a1 a2] [b1 b2] (Q1 & u & Q2 & Q3). split; [exact Q1|]. split; [reflexivity|]. exists u. auto. }
  assert (OBJ : rel (up3 p q)
    (do (x, s1) <- SetKeyCached E G s l k TObject (y_cache p); Ok (x, p, s1))
    (do (x, s1) <- SetKeyCached E G s l k TObject (y_cache p); Ok (x, q, s1))).
  { apply rel_same. intros [x s1]. apply up3_refl; auto. }
  destruct v as [|c r]; [exact OBJ|]. destruct (negb (c =? 38)).
  - destruct (c =? 42); [|apply PSV]. destruct (get_use (uses p) r).
    + apply rel_same. intros [x s1]. apply up3_refl; auto.
    + apply rel_same. intros [x s1]. apply up3_refl; auto.
  - destruct (match index_byte r 32 with Some (S i) => _ | _ => _ end) as [ref w].
    eapply rel_bind with (R := up3 p q).
    + destruct w as [|c' w]; [exact OBJ|apply PSV].
    + intros [[x a1] a2] [[y b1] b2] (Q1 & Q2 & u & Q3 & Q4). cbn [fst snd] in *. subst.
      split; [reflexivity|]. split; [reflexivity|]. cbn [fst snd uses set_uses]. eexists. split; reflexivity.
Qed.

Lemma done_ok e p q s : sim p q -> done (e, p, s) (e, q, s).
Proof. intros H. split; [reflexivity|split; [exact H|reflexivity]]. Qed.

(** The root made for two similar parsers. *)
Lemma sim_root p q s t : sim p q -> stack p = [] ->
  exists p1 q1 s1 r, new_root G pick p s t = (p1, s1, r) /\ new_root G pick q s t = (q1, s1, r) /\
    sim p1 q1 /\ first_el p1 = first_el p /\ first_el q1 = first_el q.
Proof.
  intros [A B C D U F _] Q. unfold new_root. rewrite <- A.
  assert (SR : forall r c, sim (push_node (set_root p r c) (mkNode false (-1) r)) (push_node (set_root q r c) (mkNode false (-1) r))).
  { intros r c. constructor; cbn; auto; [congruence|]. right. rewrite Q. constructor; auto. }
  destruct (use_cache p).
  - destruct (getCache s (pick s)) as [k s1]. destruct (getValue G s1 (Some k) t) as [r s2].
    do 4 eexists. do 2 (split; [reflexivity|]). split; [apply SR|]. split; reflexivity.
  - destruct (NewCacheValue G s (pick s) t) as [r s1].
    do 4 eexists. do 2 (split; [reflexivity|]). split; [apply SR|]. split; reflexivity.
Qed.

Lemma sim_cur p q s t : sim p q ->
  exists p1 q1 s1 cur,
    (match stack p with [] => new_root G pick p s t | n :: _ => (p, s, y_v n) end) = (p1, s1, cur) /\
    (match stack q with [] => new_root G pick q s t | n :: _ => (q, s, y_v n) end) = (q1, s1, cur) /\
    sim p1 q1.
Proof.
  intros SM. rewrite <- (m_stack _ _ SM). destruct (stack p) as [|n st'] eqn:Q.
  - destruct (sim_root p q s t SM Q) as (p1 & q1 & s1 & r & H1 & H2 & H3 & _). exists p1, q1, s1, r. auto.
  - exists p, q, s, (y_v n). auto.
Qed.

Definition eff_sp (p : yp) : Z :=
  match stack p with n :: _ => if first_el p && y_map n then last_sp p + 2 else last_sp p | [] => last_sp p end.
Lemma sim_eff p q : sim p q -> eff_sp p = eff_sp q.
Proof.
  intros [A B C D U F [Q|Q]]; unfold eff_sp; rewrite <- U, B.
  - rewrite Q. reflexivity.
  - destruct (stack p) as [|n l]; auto. inversion Q; subst. rewrite H1. rewrite !andb_false_r. reflexivity.
Qed.

Lemma sim_object p q s d sc : sim p q -> rel done (parseObject E G pick cf p s d sc) (parseObject E G pick cf q s d sc).
Proof.
  intros SM. unfold parseObject. cbv zeta.
  pose proof (sim_eff _ _ SM) as EF. unfold eff_sp in EF. rewrite EF. clear EF.
  set (lsp := match stack q with n :: _ => _ | [] => last_sp q end). clearbody lsp.
  destruct (sim_cur p q s TObject SM) as (p1 & q1 & s1 & cur & H1 & H2 & S1).
  rewrite H1, H2. clear H1 H2. rewrite <- (m_stack _ _ SM).
  set (nr := match stack p with [] => true | _ => false end). clearbody nr. clear SM p q s.
  apply (sim_first _ _ false) in S1. set (p := set_first p1 false) in *. set (q := set_first q1 false) in *.
  assert (FE : first_el p = first_el q) by reflexivity. clearbody p q. clear p1 q1.
  destruct (splitKv d) as [[k v] b]. set (nokv := match k with [] => true | _ => negb b end). clearbody nokv.
  assert (U := m_uses _ _ S1). assert (C := m_cache _ _ S1).
  assert (PSV : forall s2 x w, rel done
    (do (p4, s4) <- parseStringValue E G cf 1 p s2 x w; Ok (None, push_node p4 (mkNode false sc x), s4))
    (do (p4, s4) <- parseStringValue E G cf 1 q s2 x w; Ok (None, push_node p4 (mkNode false sc x), s4))).
  { intros s2 x w. eapply rel_bind; [apply (sim_psv 1 p q s2 x w); auto|].
    intros [a1 a2] [b1 b2] (Q1 & u & Q2 & Q3). cbn [fst snd] in *. subst. apply done_ok. apply sim_push, sim_uses; auto. }
  destruct (nr && nokv); [apply done_ok; auto|]. destruct (lsp =? sc).
  - destruct nokv; [apply done_ok; auto|]. rewrite <- (sim_merge p q s1 cur k v S1).
    apply rel_same. intros [[[e|] m] s2]; [apply done_ok; auto|].
    eapply rel_bind with (R := up3 p q).
    + destruct m; [apply up3_refl; auto|]. rewrite <- C. destruct v as [|c v].
      * apply rel_same. intros [x s3]. apply up3_refl; auto.
      * apply rel_same. intros [x s3]. eapply rel_bind; [apply (sim_psv 1 p q s3 x (c :: v)); auto|].
        intros [a1 a2] [b1 b2] (Q1 & u & Q2 & Q3). cbn [fst snd] in *. subst.
        split; [reflexivity|]. split; [reflexivity|]. exists u. auto.
    + intros [[x a1] a2] [[y b1] b2] (Q1 & Q2 & u & Q3 & Q4). cbn [fst snd] in *. subst.
      apply done_ok. apply sim_push, sim_uses; auto.
  - destruct (lsp <? sc).
    + destruct k as [|c0 k].
      * destruct (_ || _); [apply done_ok; auto|]. destruct (StringOf E (hp s1 cur)). apply done_ok; auto.
      * set (s2 := if vt_eqb (c_dt (hp s1 cur)) TObject then s1 else Reset s1 cur TObject).
        rewrite <- (sim_merge p q s2 cur (c0 :: k) v S1). apply rel_same. intros [[[e|] m] s3]; [apply done_ok; auto|].
        destruct m; [apply done_ok, sim_push; auto|].
        eapply rel_bind; [apply (sim_sub_value p q s3 cur (c0 :: k) v S1)|].
        intros [[x a1] a2] [[y b1] b2] (Q1 & Q2 & u & Q3 & Q4). cbn [fst snd] in *. subst.
        apply done_ok. apply sim_push, sim_uses; auto.
    + destruct (nokv || _); [apply done_ok; auto|]. rewrite <- C. destruct v as [|c v].
      * apply rel_same. intros [x s2]. apply done_ok, sim_push; auto.
      * rewrite <- (sim_merge p q s1 cur k (c :: v) S1). apply rel_same. intros [[[e|] m] s2]; [apply done_ok; auto|].
        destruct m; [apply done_ok, sim_push; auto|]. apply rel_same. intros [x s3]. apply PSV.
Qed.

Lemma sim_array p q s d sc : sim p q -> rel done (parseArray E G pick cf p s d sc) (parseArray E G pick cf q s d sc).
Proof.
  intros SM. unfold parseArray. cbv zeta. rewrite <- (m_sp _ _ SM).
  destruct (match d with [] => false | _ => _ end); [apply done_ok; auto|].
  destruct (sim_cur p q s TArray SM) as (p1 & q1 & s1 & cur & H1 & H2 & S1).
  rewrite H1, H2. clear H1 H2 SM p q s. rename p1 into p. rename q1 into q.
  set (iv := match trim d with [] => false | _ => true end). clearbody iv.
  set (s2 := if vt_eqb (c_dt (hp s1 cur)) TObject then Reset s1 cur TArray else s1). clearbody s2.
  assert (C := m_cache _ _ S1). rewrite <- C.
  destruct (vt_eqb (c_dt (hp s2 cur)) TArray).
  - destruct (SetIndexCached G s2 cur (-1) (if iv then TString else TArray) (y_cache p)) as [el s3].
    assert (S3 := sim_push p q sc el S1). destruct iv; [|apply done_ok; auto].
    destruct (splitKv (trim d)) as [[k v] b]. destruct (negb b).
    + eapply rel_bind; [apply (sim_psv 1 _ _ s3 el k (m_uses _ _ S3) (m_cache _ _ S3))|].
      intros [a1 a2] [b1 b2] (Q1 & u & Q2 & Q3). cbn [fst snd] in *. subst. apply done_ok, sim_uses; auto.
    + destruct k as [|c0 k]; [apply done_ok; auto|].
      assert (S4 : sim (set_first (push_node p (mkNode true sc el)) true) (set_first (push_node q (mkNode true sc el)) true)).
      { destruct S1. constructor; cbn; auto. congruence. }
      set (p4 := set_first (push_node p (mkNode true sc el)) true) in *.
      set (q4 := set_first (push_node q (mkNode true sc el)) true) in *.
      assert (F4 : first_el p4 = first_el q4) by reflexivity.
      assert (C4 := m_cache _ _ S4). assert (U4 := m_uses _ _ S4). clearbody p4 q4. rewrite <- C4.
      destruct v as [|c v].
      * apply rel_same. intros [x s5]. apply done_ok, sim_push_first; auto.
      * apply rel_same. intros [x s5]. eapply rel_bind; [apply (sim_psv 1 _ _ s5 x (c :: v) U4 C4)|].
        intros [a1 a2] [b1 b2] (Q1 & u & Q2 & Q3). cbn [fst snd] in *. subst. apply done_ok.
        apply sim_push_first; [apply sim_uses; auto|exact F4].
  - destruct iv; [|apply done_ok; auto]. destruct (StringOf E (hp s2 cur)). apply done_ok; auto.
Qed.

Lemma sim_line p q s l sc : sim p q -> rel done (parseLine E G pick cf p s l sc) (parseLine E G pick cf q s l sc).
Proof.
  intros SM. unfold parseLine. destruct (skipn sc l) as [|c0 r0]; [exact I|].
  destruct (c0 =? 35); [apply done_ok; auto|]. cbv zeta.
  destruct (match index_hash (c0 :: r0) with Some (S (S i)) => _ | _ => _ end) as [|c r]; [apply done_ok; auto|].
  pose proof (sim_eff _ _ SM) as EF. unfold eff_sp in EF. rewrite EF. clear EF.
  set (lsp := match stack q with n :: _ => _ | [] => last_sp q end). clearbody lsp.
  rewrite <- (m_stack _ _ SM).
  set (p1 := if Z.of_nat sc <? lsp then set_stack p _ else if lsp =? Z.of_nat sc then set_stack p _ else p).
  set (q1 := if Z.of_nat sc <? lsp then set_stack q _ else if lsp =? Z.of_nat sc then set_stack q _ else q).
  assert (S1 : sim p1 q1).
  { unfold p1, q1, popLast. destruct (_ <? lsp); [|destruct (lsp =? _); auto].
    - apply sim_sub; auto. intros H. apply no_map_unwind, no_map_skip; auto.
    - apply sim_sub; auto. apply (no_map_skip 1). }
  clearbody p1 q1.
  eapply rel_bind with (R := done).
  - destruct (c =? 45); [apply sim_array; auto|apply sim_object; auto].
  - intros [[e a1] a2] [[e' b1] b2] (Q1 & Q2 & Q3). cbn [fst snd] in *. subst. apply done_ok, sim_last; auto.
Qed.

Lemma sim_loop n : forall p q s data i, sim p q -> rel done (yloop E G pick cf n p s data i) (yloop E G pick cf n q s data i).
Proof.
  induction n as [|n IH]; intros p q s data i SM; cbn [yloop]; [exact I|].
  destruct (_ <? 2)%nat.
  - destruct (_ =? _)%nat; [apply done_ok; auto|apply IH; auto].
  - eapply rel_bind; [apply sim_line; exact SM|].
    intros [[e a1] a2] [[e' b1] b2] (Q1 & Q2 & Q3). cbn [fst snd] in *. subst.
    destruct e'; [apply done_ok; auto|]. destruct (_ <=? _)%nat; [apply done_ok; auto|apply IH; auto].
Qed.
Lemma sim_parse n p q s data : sim p q -> rel done (yparse E G pick cf n p s data) (yparse E G pick cf n q s data).
Proof.
  intros SM. unfold yparse. destruct data; [apply done_ok; auto|]. apply sim_loop. destruct SM. constructor; auto.
Qed.

(** [parse] sets the indentation itself. *)
Lemma parse_init n p q s data : (data = [] -> last_sp p = last_sp q) ->
  use_cache p = use_cache q -> y_root p = y_root q -> y_cache p = y_cache q -> stack p = stack q ->
  uses p = uses q -> (first_el p = first_el q \/ no_map (stack p)) ->
  rel done (yparse E G pick cf n p s data) (yparse E G pick cf n q s data).
Proof.
  intros L A B C D U F. unfold yparse. destruct data; [apply done_ok; constructor; auto|].
  apply sim_loop. constructor; auto.
Qed.
End Sim.
