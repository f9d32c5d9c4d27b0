(** Comments and trailing white space do not matter. *)
From Verif Require Import Base Values Tactics HeapModel HeapSpec HeapBase YamlModel YamlSpec YamlThms YamlFlat YamlTreeSpec.

Lemma is_sp_pad ws : pad ws -> Forall (fun c => is_sp c = true) ws.
Proof. apply Forall_impl. intros c [->| ->]; reflexivity. Qed.
Lemma drop_sp_all a b : Forall (fun c => is_sp c = true) a -> drop_sp (a ++ b) = drop_sp b.
Proof. induction 1 as [|c a H _ IH]; cbn [app drop_sp]; [reflexivity|]. rewrite H. exact IH. Qed.
Lemma drop_sp_app b ws : Forall (fun c => is_sp c = true) ws -> drop_sp b <> [] -> drop_sp (b ++ ws) = drop_sp b ++ ws.
Proof.
  intros F. induction b as [|c b IH]; intros H; cbn [app drop_sp] in *; [congruence|].
  destruct (is_sp c); [apply IH; exact H|reflexivity].
Qed.
Lemma drop_sp_nil b : drop_sp b = [] -> Forall (fun c => is_sp c = true) b.
Proof. induction b as [|c b IH]; cbn [drop_sp]; intros H; constructor; destruct (is_sp c) eqn:Q; auto; discriminate. Qed.
Lemma trim_pad b ws : pad ws -> trim (b ++ ws) = trim b.
Proof.
  intros P. apply is_sp_pad in P. unfold trim. destruct (drop_sp b) as [|c r] eqn:Q.
  - assert (A : drop_sp (b ++ ws) = []).
    { rewrite drop_sp_all by (apply drop_sp_nil; exact Q). rewrite <- (app_nil_r ws). rewrite drop_sp_all by exact P. reflexivity. }
    rewrite A. reflexivity.
  - rewrite drop_sp_app by (auto; rewrite Q; discriminate). rewrite Q, rev_app_distr.
    rewrite drop_sp_all by (apply Forall_rev; exact P). reflexivity.
Qed.
Lemma split_pad b ws : pad ws -> splitKv (b ++ ws) = splitKv b.
Proof. intros P. unfold splitKv. rewrite trim_pad by exact P. reflexivity. Qed.
Lemma pad_no_comment ws : pad ws -> no_comment ws.
Proof.
  intros P x y Q. unfold pad in P. rewrite Q in P. apply Forall_app in P as [_ P].
  inversion P as [|? ? _ P2]; subst. inversion P2 as [|? ? [K|K] _]; subst; discriminate.
Qed.
Lemma pad_hd ws : pad ws -> hd 0 ws <> 35.
Proof. intros P. destruct P as [|c ws [->| ->] _]; discriminate. Qed.
Lemma hash_at a b : no_comment a -> index_hash (a ++ 32 :: 35 :: b) = Some (List.length a).
Proof.
  induction a as [|c a IH]; intros NC; [reflexivity|]. cbn [app index_hash].
  rewrite IH by (intros x y Q; apply (NC (c :: x) y); rewrite Q; reflexivity).
  destruct (Z.eqb_spec c 32) as [->|]; [|reflexivity]. destruct a as [|c' a]; [reflexivity|]. cbn [app].
  destruct (Z.eqb_spec c' 35) as [->|]; [|reflexivity]. exfalso. apply (NC [] a). reflexivity.
Qed.
Lemma last_same {A} (a b : list A) d : b <> [] -> last (a ++ b) d = last b d.
Proof.
  intros NB. induction a as [|x a IH]; [reflexivity|]. cbn [app last]. destruct (a ++ b) eqn:Q; [|exact IH].
  apply app_eq_nil in Q as [_ Q]. contradiction.
Qed.

Section Decor.
Variable E : env.
Variable G : nat -> nat.
Variable pick : st -> option nat.
Variable cf : nat.
Notation pline := (parseLine E G pick cf).
Notation run := (run E G pick cf).

Lemma object_pad p s b ws z : pad ws -> parseObject E G pick cf p s (b ++ ws) z = parseObject E G pick cf p s b z.
Proof. intros P. unfold parseObject. rewrite split_pad by exact P. reflexivity. Qed.
Lemma array_pad p s b ws z : pad ws -> b <> [] -> parseArray E G pick cf p s (b ++ ws) z = parseArray E G pick cf p s b z.
Proof. intros P NB. unfold parseArray. rewrite trim_pad by exact P. destruct b as [|c b]; [congruence|]. reflexivity. Qed.

Lemma line_pad p s n body ws tl : (2 <= List.length body)%nat -> hd 0 body <> 32 -> hd 0 body <> 35 -> no_comment body -> pad ws ->
  (tl = [] \/ exists t, tl = 32 :: 35 :: t) ->
  pline p s (blanks n ++ body ++ ws ++ tl) (lead (blanks n ++ body ++ ws ++ tl)) = pline p s (blanks n ++ body) (lead (blanks n ++ body)).
Proof.
  intros L2 H32 H35 NC P T.
  assert (NB : no_comment (body ++ ws)).
  { apply no_comment_app; auto; [apply pad_no_comment; auto|]. intros [_ K]. exact (pad_hd ws P K). }
  assert (HD : forall b, hd 0 (body ++ b) = hd 0 body) by (intros b; destruct body; [cbn in L2; lia|reflexivity]).
  assert (D : match index_hash (body ++ ws ++ tl) with Some (S (S i)) => firstn (S (S i)) (body ++ ws ++ tl) | _ => body ++ ws ++ tl end = body ++ ws).
  { destruct T as [->|(t & ->)].
    - rewrite app_nil_r, index_hash_none by exact NB. reflexivity.
    - rewrite app_assoc, hash_at by exact NB. pose proof (app_length body ws) as AL.
      destruct (List.length (body ++ ws)) as [|[|i]] eqn:Q; [lia|lia|]. rewrite <- Q.
      rewrite firstn_app, firstn_all, Nat.sub_diag. cbn [firstn]. apply app_nil_r. }
  unfold parseLine. rewrite !lead_blanks by (rewrite ?HD; auto). rewrite !skip_blanks.
  pose proof (index_hash_none body NC) as IH.
  destruct body as [|c b]; [cbn in L2; lia|]. cbn [app hd] in *.
  destruct (Z.eqb_spec c 35); [contradiction|]. rewrite D, IH. cbv zeta.
  assert (NE : b <> []) by (intros ->; cbn in L2; lia).
  change (c :: b ++ ws) with ((c :: b) ++ ws).
  rewrite object_pad, array_pad by auto. reflexivity.
Qed.

Lemma run_decor a b : decorated a b -> forall p s, run p s b = run p s a.
Proof.
  induction 1 as [|l a b _ IH|n t a b _ IH|a b _ IH|n body ws tl a b L2 H32 H35 NC P T _ IH]; intros p s.
  - reflexivity.
  - cbn [YamlThms.run]. destruct (_ <? _)%nat; [apply IH|]. destruct (pline p s l (lead l)) as [[[[e|] p1] s1]| | |]; cbn [bind]; auto.
  - cbn [YamlThms.run]. destruct (_ <? _)%nat; [apply IH|]. unfold parseLine.
    rewrite lead_blanks by discriminate. rewrite skip_blanks. exact (IH p s).
  - cbn [YamlThms.run]. exact (IH p s).
  - cbn [YamlThms.run]. rewrite line_pad by auto.
    rewrite !app_length. destruct (Nat.ltb_spec (List.length (blanks n) + (List.length body + (List.length ws + List.length tl))) 2); [lia|].
    destruct (Nat.ltb_spec (List.length (blanks n) + List.length body) 2); [lia|].
    destruct (pline p s _ _) as [[[[e|] p1] s1]| | |]; cbn [bind]; auto.
Qed.
Lemma decor_sizes a b : decorated a b -> Forall no_newline b -> Forall no_newline a /\ (List.length a <= List.length b)%nat /\
  (doc a <> [] -> doc b <> []).
Proof.
  assert (DN : forall x y : list bytes, (doc (x ++ y) = [] -> x ++ y = [] \/ x ++ y = [[]])).
  { intros x y H. destruct (x ++ y) as [|l r]; auto. right. destruct r as [|l' r]; cbn [doc] in H; [subst; auto|].
    destruct l; discriminate. }
  induction 1 as [|l a b D IH|n t a b D IH|a b D IH|n body ws tl a b L2 H32 H35 NC P T D IH]; intros F.
  - auto.
  - inversion F; subst. destruct (IH H2) as (A & B & C). split; [constructor; auto|]. split; [cbn; lia|].
    intros Q Q2. destruct (DN [l] b Q2) as [K|K]; [discriminate|]. injection K as -> ->. inversion D; subst. apply Q. reflexivity.
  - inversion F; subst. destruct (IH H2) as (A & B & C). split; [auto|]. split; [cbn; lia|].
    intros Q Q2. destruct (DN [_] b Q2) as [K|K]; [discriminate|]. injection K as K _. destruct n; discriminate.
  - inversion F; subst. destruct (IH H2) as (A & B & C). split; [constructor; auto; intros []|]. split; [cbn; lia|].
    intros Q Q2. destruct (DN [_] b Q2); discriminate.
  - inversion F as [|? ? F1 F2]; subst. destruct (IH F2) as (A & B & C). split; [|split].
    + constructor; auto. intros X. apply F1. apply in_app_or in X as [X|X]; apply in_or_app; [left; auto|right; apply in_or_app; auto].
    + cbn; lia.
    + intros Q Q2. destruct (DN [_] b Q2) as [K|K]; [discriminate|]. injection K as K _. destruct n; [|discriminate].
      destruct body; [cbn in L2; lia|discriminate].
Qed.

Theorem decor_parse a b n p s : decorated a b -> doc a <> [] -> Forall no_newline b -> List.length (last a []) <> 1%nat ->
  List.length (last b []) <> 1%nat -> (List.length b <= n)%nat -> yparse E G pick cf n p s (doc b) = yparse E G pick cf n p s (doc a).
Proof.
  intros D NA F LA LB LE. destruct (decor_sizes a b D F) as (FA & LAB & NB).
  assert (N1 : a <> []) by (intros ->; apply NA; reflexivity).
  assert (N2 : b <> []) by (intros ->; apply NB; auto).
  rewrite !parse_run by (auto; lia). apply Nat.eqb_neq in LA, LB. rewrite LA, LB. apply run_decor. exact D.
Qed.
End Decor.
