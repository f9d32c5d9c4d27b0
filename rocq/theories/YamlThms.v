(** The loop over the lines and the pooled parser. *)
From Verif Require Import Base Values Tactics HeapModel HeapSpec HeapBase YamlModel YamlSpec.

(** ** Lines *)
Lemma doc_cons l r : r <> [] -> doc (l :: r) = l ++ 10 :: doc r.
Proof. destruct r; [congruence|reflexivity]. Qed.
Lemma doc_nil_iff ls : ls <> [] -> (doc ls = [] <-> ls = [[]]).
Proof.
  destruct ls as [|l [|l' r]]; [congruence| |]; intros _.
  - cbn. split; [intros ->; auto|intros Q; injection Q; auto].
  - cbn [doc]. split; intros Q; [|discriminate]. destruct l; discriminate.
Qed.
Lemma doc_exists b : exists ls, ls <> [] /\ Forall no_newline ls /\ doc ls = b.
Proof.
  induction b as [|c b (ls & N & F & D)].
  - exists [[]]. split; [discriminate|split; [constructor; [intros []|constructor]|reflexivity]].
  - destruct (Z.eqb_spec c 10) as [->|C].
    + exists ([] :: ls). split; [discriminate|]. split; [constructor; [intros []|auto]|].
      rewrite doc_cons by auto. rewrite D. reflexivity.
    + destruct ls as [|l r]; [congruence|]. apply Forall_cons_iff in F as [F1 F2].
      exists ((c :: l) :: r). split; [discriminate|]. split.
      * constructor; auto. intros [X|X]; [congruence|exact (F1 X)].
      * destruct r; [cbn in *; congruence|]. rewrite doc_cons in D |- * by discriminate. rewrite <- D. reflexivity.
Qed.
Lemma line_of_spec l r : no_newline l -> line_of (l ++ 10 :: r) = l.
Proof.
  induction l as [|c l IH]; intros N; cbn [app line_of]; [reflexivity|].
  destruct (Z.eqb_spec c 10) as [->|C]; [exfalso; apply N; left; auto|].
  f_equal. apply IH. intros X; apply N; right; auto.
Qed.
Lemma line_of_all l : no_newline l -> line_of l = l.
Proof.
  induction l as [|c l IH]; intros N; cbn [line_of]; [reflexivity|].
  destruct (Z.eqb_spec c 10) as [->|C]; [exfalso; apply N; left; auto|].
  f_equal. apply IH. intros X; apply N; right; auto.
Qed.
Lemma line_of_doc l r : no_newline l -> line_of (doc (l :: r)) = l.
Proof.
  intros N. destruct r; [apply line_of_all; auto|]. rewrite doc_cons by discriminate. apply line_of_spec; auto.
Qed.

Section Loop.
Variable E : env.
Variable G : nat -> nat.
Variable pick : st -> option nat.
Variable cf : nat.
Notation parseLine := (parseLine E G pick cf).
Notation yloop := (yloop E G pick cf).
Notation yparse := (yparse E G pick cf).

(** The lines one after the other. *)
Fixpoint run (p : yp) (s : st) (ls : list bytes) : yres :=
  match ls with
  | [] => Ok (None, p, s)
  | l :: r =>
      if (List.length l <? 2)%nat then run p s r
      else do (e, p1, s1) <- parseLine p s l (lead l);
           match e with Some _ => Ok (e, p1, s1) | None => run p1 s1 r end
  end.
Definition stuck (r : yres) : yres :=
  match r with Ok (None, _, _) => OutOfFuel | _ => r end.

Lemma run_app a b : forall p s, run p s (a ++ b) =
  do (e, p1, s1) <- run p s a; match e with Some _ => Ok (e, p1, s1) | None => run p1 s1 b end.
Proof.
  induction a as [|l a IH]; intros p s; cbn [app run]; [reflexivity|].
  destruct (_ <? _)%nat; [apply IH|].
  destruct (parseLine p s l (lead l)) as [[[e p1] s1]|x| |]; cbn [bind]; auto.
  destruct e; [reflexivity|]. apply IH.
Qed.

(** With less fuel nothing else is reached. *)
Lemma loop_less n : forall m p s data i, (n <= m)%nat -> yloop m p s data i = OutOfFuel -> yloop n p s data i = OutOfFuel.
Proof.
  induction n as [|n IH]; intros m p s data i L H; [reflexivity|]. destruct m as [|m]; [lia|].
  cbn [YamlModel.yloop] in *. destruct (_ <? 2)%nat.
  - destruct (_ =? _)%nat; [exact H|]. apply (IH m); [lia|exact H].
  - destruct (parseLine p s (line_of (skipn i data)) (lead (line_of (skipn i data)))) as [[[[e|] p1] s1]| | |]; cbn [bind] in *; auto.
    destruct (_ <=? _)%nat; [exact H|]. apply (IH m); [lia|exact H].
Qed.

Lemma loop_past n p s data : yloop n p s data (S (List.length data)) = OutOfFuel.
Proof.
  induction n as [|n IH]; [reflexivity|]. cbn [YamlModel.yloop].
  rewrite skipn_all2 by lia. cbn [line_of List.length].
  replace (Nat.min (S (List.length data) + 0) (List.length data)) with (List.length data) by lia.
  replace (List.length data - S (List.length data) <? 2)%nat with true by (symmetry; apply Nat.ltb_lt; lia).
  replace (S (List.length data) =? List.length data)%nat with false by (symmetry; apply Nat.eqb_neq; lia).
  exact IH.
Qed.

Lemma loop_run ls : ls <> [] -> doc ls <> [] -> Forall no_newline ls -> forall n pre p s,
  (List.length ls <= n)%nat ->
  yloop n p s (pre ++ doc ls) (List.length pre) =
    (if (List.length (last ls []) =? 1)%nat then stuck (run p s ls) else run p s ls).
Proof.
  induction ls as [|l r IH]; intros NE ND F n pre p s LE; [congruence|].
  apply Forall_cons_iff in F as [F1 F2].
  destruct n as [|n]; [cbn in LE; lia|].
  cbn [YamlModel.yloop]. rewrite skipn_app, skipn_all, Nat.sub_diag. cbn [app skipn].
  rewrite line_of_doc by auto.
  destruct r as [|l' r].
  - cbn [doc last] in *. rewrite app_length.
    rewrite Nat.min_id.
    replace (List.length pre + List.length l - List.length pre)%nat with (List.length l) by lia.
    cbn [run].
    destruct (Nat.ltb_spec (List.length l) 2) as [L|L].
    + assert (Q : (List.length l = 1)%nat) by (destruct l as [|? [|]]; cbn in *; [congruence|auto|lia]).
      rewrite <- app_length.
      replace (S (List.length (pre ++ l)) =? List.length (pre ++ l))%nat with false by (symmetry; apply Nat.eqb_neq; lia).
      rewrite Q. cbn [Nat.eqb stuck]. apply loop_past.
    + replace (List.length l =? 1)%nat with false by (symmetry; apply Nat.eqb_neq; lia).
      destruct (parseLine p s l (lead l)) as [[[e p1] s1]|x| |]; cbn [bind]; auto.
      destruct e; [reflexivity|].
      replace (_ <=? _)%nat with true by (symmetry; apply Nat.leb_le; lia). reflexivity.
  - rewrite (doc_cons l (l' :: r)) by discriminate.
    set (R := l' :: r) in *.
    assert (LL : last (l :: R) [] = last R []) by reflexivity. rewrite LL. clear LL.
    rewrite !app_length. cbn [List.length].
    replace (Nat.min (List.length pre + List.length l) (List.length pre + (List.length l + S (List.length (doc R)))))
      with (List.length pre + List.length l)%nat by lia.
    replace (List.length pre + List.length l - List.length pre)%nat with (List.length l) by lia.
    assert (NEXT : forall p s, doc R <> [] -> yloop n p s (pre ++ l ++ 10 :: doc R) (S (List.length pre + List.length l)) =
      (if (List.length (last R []) =? 1)%nat then stuck (run p s R) else run p s R)).
    { intros p0 s0 D. rewrite <- (IH ltac:(discriminate) D F2 n (pre ++ l ++ [10]) p0 s0) by (unfold R in *; cbn in *; lia).
      rewrite !app_length. cbn [List.length]. rewrite <- !app_assoc. cbn [app].
      f_equal. lia. }
    assert (DONE : doc R = [] -> R = [[]]) by (apply doc_nil_iff; discriminate).
    change (run p s (l :: R)) with (if (List.length l <? 2)%nat then run p s R
      else do (e, p1, s1) <- parseLine p s l (lead l);
           match e with Some _ => Ok (e, p1, s1) | None => run p1 s1 R end).
    assert (D0 : doc R = [] -> forall p s, (if (List.length (last R []) =? 1)%nat then stuck (run p s R) else run p s R) =
      Ok (None, p, s)) by (intros D p0 s0; rewrite (DONE D); reflexivity).
    assert (D1 : doc R = [] <-> List.length (doc R) = 0%nat) by (destruct (doc R); cbn; split; congruence).
    destruct (List.length l <? 2)%nat.
    + destruct (Nat.eqb_spec (S (List.length pre + List.length l))
        (List.length pre + (List.length l + S (List.length (doc R))))) as [Q|Q].
      * symmetry. apply D0. apply D1. lia.
      * apply NEXT. rewrite D1. lia.
    + destruct (parseLine p s l (lead l)) as [[[e p1] s1]|x| |]; cbn [bind stuck];
        try (destruct (_ =? 1)%nat; reflexivity).
      destruct e; [cbn [stuck]; destruct (_ =? 1)%nat; reflexivity|].
      destruct (Nat.leb_spec (List.length pre + (List.length l + S (List.length (doc R))))
        (S (List.length pre + List.length l))) as [Q|Q].
      * symmetry. apply D0. apply D1. lia.
      * apply NEXT. rewrite D1. lia.
Qed.

(** The parser as [parse] starts it. *)
Definition started (p : yp) : yp :=
  mkYp (first_el p) false (use_cache p) (-1) (y_root p) (y_cache p) (stack p) (uses p).
Lemma parse_run ls n p s : ls <> [] -> doc ls <> [] -> Forall no_newline ls -> (List.length ls <= n)%nat ->
  yparse n p s (doc ls) =
    (if (List.length (last ls []) =? 1)%nat then stuck (run (started p) s ls) else run (started p) s ls).
Proof.
  intros NE ND F LE. unfold YamlModel.yparse. pose proof (loop_run ls NE ND F n [] (started p) s LE) as H.
  cbn [app List.length] in H. destruct (doc ls); [congruence|]. exact H.
Qed.
End Loop.
