(** The BSON encoder: appended bytes, length headers, conformance, round trip. *)
From Verif Require Import Base Values BsonModel BsonSpec Tactics BsonThms BsonRound.

Lemma ok_inj {A} (a b : A) : Ok a = Ok b -> a = b.
Proof. congruence. Qed.

Section Enc.
Context (E : env).

Definition obj_loop (u : bool) := fix go (kvs : list (bytes * value)) (dst : bytes) : res bytes :=
  match kvs with
  | [] => Ok dst
  | (k, x) :: r =>
      let k := if u then k else x_unescape E k in
      let dst := writeBsonElementType x dst ++ k ++ [0] in
      do dst <- match x with VNilP => Ok dst | _ => ToBson E x dst end;
      go r dst
  end.
Definition arr_loop := fix go (i : Z) (l : list value) (dst : bytes) : res bytes :=
  match l with
  | [] => Ok dst
  | x :: r =>
      let dst := writeBsonElementType x dst ++ fmt_int i ++ [0] in
      do dst <- match x with VNilP => Ok dst | _ => ToBson E x dst end;
      go (i + 1) r dst
  end.
Definition close (dst d : bytes) : bytes := put32_at (d ++ [0]) (zlen dst) (zlen (d ++ [0]) - zlen dst).
Lemma ToBson_obj u kvs dst : ToBson E (VObject u kvs) dst =
  do d <- obj_loop u kvs (dst ++ [0; 0; 0; 0]); Ok (close dst d).
Proof. reflexivity. Qed.
Lemma ToBson_arr l dst : ToBson E (VArray l) dst =
  do d <- arr_loop 0 l (dst ++ [0; 0; 0; 0]); Ok (close dst d).
Proof. reflexivity. Qed.
Lemma nilp_write (x : value) dst :
  match x with VNilP => Ok dst | _ => ToBson E x dst end = ToBson E x dst.
Proof. destruct x; reflexivity. Qed.
Lemma obj_loop_cons u k x r dst : obj_loop u ((k, x) :: r) dst =
  do d <- ToBson E x (writeBsonElementType x dst ++ (if u then k else x_unescape E k) ++ [0]); obj_loop u r d.
Proof. cbn [obj_loop]. rewrite nilp_write. reflexivity. Qed.
Lemma arr_loop_cons i x r dst : arr_loop i (x :: r) dst =
  do d <- ToBson E x (writeBsonElementType x dst ++ fmt_int i ++ [0]); arr_loop (i + 1) r d.
Proof. cbn [arr_loop]. rewrite nilp_write. reflexivity. Qed.

Lemma close_app dst body :
  close dst ((dst ++ [0; 0; 0; 0]) ++ body) = dst ++ frame body.
Proof.
  unfold close, put32_at, frame. rewrite <- !app_assoc.
  rewrite firstn_zlen_app. f_equal.
  rewrite !zlen_app. f_equal.
  - unfold le. f_equal. change (zlen [0]) with 1. change (zlen [0; 0; 0; 0]) with 4. lia.
  - rewrite skipn_app, skipn_all2 by (unfold zlen; lia). cbn [app].
    replace (Z.to_nat (zlen dst) + 4 - length dst)%nat with 4%nat by (unfold zlen; lia).
    reflexivity.
Qed.

(** ** Append-only *)
Definition appends (r : bytes -> res bytes) : Prop :=
  forall dst, r dst = do o <- r []; Ok (dst ++ o).

Lemma type_app v dst : writeBsonElementType v dst = dst ++ writeBsonElementType v [].
Proof.
  destruct v; cbn [writeBsonElementType app];
    repeat match goal with |- context [if ?c then _ else _] => destruct c end;
    rewrite ?app_nil_r; reflexivity.
Qed.
Lemma simple_app v : appends (writeSimpleBsonValue E v).
Proof.
  intros dst. destruct v; cbn [writeSimpleBsonValue]; unfold putLittI32, putLittI64;
    repeat match goal with
    | |- context [if ?c then _ else _] => destruct c
    | |- context [take ?n ?b] => destruct (take n b)
    end; cbn [bind app]; rewrite ?app_nil_r, ?app_assoc; reflexivity.
Qed.
Lemma obj_loop_app u kvs : Forall (fun kv => appends (ToBson E (snd kv))) kvs ->
  appends (obj_loop u kvs).
Proof.
  induction 1 as [|[k x] kvs Hx _ IH]; intros dst; [cbn; rewrite app_nil_r; reflexivity|].
  rewrite !obj_loop_cons. simpl in Hx. rewrite (Hx (writeBsonElementType x dst ++ _)).
  rewrite (Hx (writeBsonElementType x [] ++ _)).
  destruct (ToBson E x []); cbn [bind]; auto.
  rewrite IH. rewrite (IH ((_ ++ _) ++ _)). rewrite (type_app x dst).
  destruct (obj_loop u kvs []); cbn [bind]; auto. rewrite !app_assoc; reflexivity.
Qed.
Lemma arr_loop_app i l : Forall (fun x => appends (ToBson E x)) l -> appends (arr_loop i l).
Proof.
  intros H; revert i; induction H as [|x l Hx _ IH]; intros i dst; [cbn; rewrite app_nil_r; reflexivity|].
  rewrite !arr_loop_cons. rewrite (Hx (writeBsonElementType x dst ++ _)).
  rewrite (Hx (writeBsonElementType x [] ++ _)).
  destruct (ToBson E x []); cbn [bind]; auto.
  rewrite IH. rewrite (IH _ ((_ ++ _) ++ _)). rewrite (type_app x dst).
  destruct (arr_loop (i + 1) l []); cbn [bind]; auto. rewrite !app_assoc; reflexivity.
Qed.
Lemma ToBson_app v : appends (ToBson E v).
Proof.
  induction v using value_ind'; try (intros dst; apply simple_app).
  - intros dst. rewrite !ToBson_obj.
    rewrite (obj_loop_app u kvs H), (obj_loop_app u kvs H ([] ++ _)).
    destruct (obj_loop u kvs []) as [o| | |]; cbn [bind]; auto.
    rewrite !close_app. reflexivity.
  - intros dst. rewrite !ToBson_arr.
    rewrite (arr_loop_app 0 l H), (arr_loop_app 0 l H ([] ++ _)).
    destruct (arr_loop 0 l []) as [o| | |]; cbn [bind]; auto.
    rewrite !close_app. reflexivity.
Qed.

(** ** Length headers, for every value *)
Definition container (v : value) : Prop :=
  match v with VObject _ _ | VArray _ => True | _ => False end.
(** [part w v]: [w] occurs in [v] (or is [v]). *)
Inductive part (w : value) : value -> Prop :=
| part_here : part w w
| part_obj u kvs k x : In (k, x) kvs -> part w x -> part w (VObject u kvs)
| part_arr l x : In x l -> part w x -> part w (VArray l).

Lemma container_frame v o : container v -> ToBson E v [] = Ok o -> exists body, o = frame body.
Proof.
  intros Hc H; destruct v; try destruct Hc.
  - rewrite ToBson_obj in H. apply bind_ok in H as [d [Hd H]]. inversion H; subst.
    rewrite (obj_loop_app unescaped kvs) in Hd by (apply Forall_forall; intros; apply ToBson_app).
    apply bind_ok in Hd as [body [_ Hd]]. apply ok_inj in Hd; subst d. rewrite close_app. exists body; reflexivity.
  - rewrite ToBson_arr in H. apply bind_ok in H as [d [Hd H]]. inversion H; subst.
    rewrite (arr_loop_app 0 l) in Hd by (apply Forall_forall; intros; apply ToBson_app).
    apply bind_ok in Hd as [body [_ Hd]]. apply ok_inj in Hd; subst d. rewrite close_app. exists body; reflexivity.
Qed.

Lemma loop_parts u kvs o k x : obj_loop u kvs [] = Ok o -> In (k, x) kvs ->
  exists p q y, o = p ++ y ++ q /\ ToBson E x [] = Ok y.
Proof.
  revert o; induction kvs as [|[k0 x0] kvs IH]; intros o H; [intros []|].
  rewrite obj_loop_cons in H. rewrite ToBson_app in H.
  apply bind_ok in H as [d [Hd H]]. apply bind_ok in Hd as [y [Hy Hd]]. inversion Hd; subst; clear Hd.
  rewrite (obj_loop_app u kvs) in H by (apply Forall_forall; intros; apply ToBson_app).
  apply bind_ok in H as [o' [Ho H]]. inversion H; subst; clear H.
  intros [Hin|Hin].
  - inversion Hin; subst. eexists _, _, y. split; [|exact Hy]. rewrite <- app_assoc. reflexivity.
  - destruct (IH o' Ho Hin) as (p & q & z & -> & Hz).
    eexists _, q, z. split; [|exact Hz]. rewrite app_assoc. reflexivity.
Qed.
Lemma aloop_parts i l o x : arr_loop i l [] = Ok o -> In x l ->
  exists p q y, o = p ++ y ++ q /\ ToBson E x [] = Ok y.
Proof.
  revert i o; induction l as [|x0 l IH]; intros i o H; [intros []|].
  rewrite arr_loop_cons in H. rewrite ToBson_app in H.
  apply bind_ok in H as [d [Hd H]]. apply bind_ok in Hd as [y [Hy Hd]]. inversion Hd; subst; clear Hd.
  rewrite (arr_loop_app (i + 1) l) in H by (apply Forall_forall; intros; apply ToBson_app).
  apply bind_ok in H as [o' [Ho H]]. inversion H; subst; clear H.
  intros [Hin|Hin].
  - subst. eexists _, _, y. split; [|exact Hy]. rewrite <- app_assoc. reflexivity.
  - destruct (IH _ o' Ho Hin) as (p & q & z & -> & Hz).
    eexists _, q, z. split; [|exact Hz]. rewrite app_assoc. reflexivity.
Qed.
Lemma parts_written w v o : part w v -> ToBson E v [] = Ok o ->
  exists p q y, o = p ++ y ++ q /\ ToBson E w [] = Ok y.
Proof.
  intros H; revert o; induction H as [|u kvs k x Hin _ IH|l x Hin _ IH]; intros o Ho.
  - exists [], [], o. rewrite app_nil_r. auto.
  - rewrite ToBson_obj in Ho. apply bind_ok in Ho as [d [Hd Ho]]. inversion Ho; subst; clear Ho.
    rewrite (obj_loop_app u kvs) in Hd by (apply Forall_forall; intros; apply ToBson_app).
    apply bind_ok in Hd as [body [Hb Hd]]. apply ok_inj in Hd; subst d. rewrite close_app.
    destruct (loop_parts _ _ _ _ _ Hb Hin) as (p & q & y & -> & Hy).
    destruct (IH _ Hy) as (p' & q' & z & -> & Hz). unfold frame.
    exists (le 4 (zlen (p ++ (p' ++ z ++ q') ++ q) + 5) ++ p ++ p'), (q' ++ q ++ [0]), z.
    split; [|exact Hz]. cbn [app]. rewrite <- !app_assoc. reflexivity.
  - rewrite ToBson_arr in Ho. apply bind_ok in Ho as [d [Hd Ho]]. inversion Ho; subst; clear Ho.
    rewrite (arr_loop_app 0 l) in Hd by (apply Forall_forall; intros; apply ToBson_app).
    apply bind_ok in Hd as [body [Hb Hd]]. apply ok_inj in Hd; subst d. rewrite close_app.
    destruct (aloop_parts _ _ _ _ Hb Hin) as (p & q & y & -> & Hy).
    destruct (IH _ Hy) as (p' & q' & z & -> & Hz). unfold frame.
    exists (le 4 (zlen (p ++ (p' ++ z ++ q') ++ q) + 5) ++ p ++ p'), (q' ++ q ++ [0]), z.
    split; [|exact Hz]. cbn [app]. rewrite <- !app_assoc. reflexivity.
Qed.

Lemma frame_header body : zlen (frame body) < 2 ^ 32 ->
  le_val (firstn 4 (frame body)) = zlen (frame body) /\ last (frame body) 1 = 0.
Proof.
  intros Hz. pose proof (zlen_frame body). pose proof (zlen_nonneg body). split.
  - unfold frame at 1. rewrite firstn_app, firstn_all2 by (unfold le; rewrite le_bytes_len; lia).
    unfold le; rewrite le_bytes_len. cbn [Nat.sub firstn]. rewrite app_nil_r, le_val_bytes.
    rewrite H. apply Z.mod_small. simpl; lia.
  - unfold frame. rewrite app_assoc. apply last_last.
Qed.

Theorem headers v dst out : Value2Bson E v dst = Ok out -> zlen out - zlen dst < 2 ^ 32 ->
  exists o, out = dst ++ o /\ Value2Bson E v [] = Ok o /\
  forall w, container w -> part w v ->
    exists p d q, o = p ++ d ++ q /\ Value2Bson E w [] = Ok d /\
      le_val (firstn 4 d) = zlen d /\ last d 1 = 0.
Proof.
  intros H Hz. assert (Hc : container v) by (destruct v; simpl in *; try discriminate; exact I).
  assert (Hv : forall v dst, container v -> Value2Bson E v dst = ToBson E v dst)
    by (intros [] ? Hd; try destruct Hd; reflexivity).
  rewrite Hv, ToBson_app in H by auto. apply bind_ok in H as [o [Ho H]]. inversion H; subst.
  exists o. split; auto. rewrite Hv by auto. split; auto.
  rewrite zlen_app in Hz.
  intros w Hw Hp. destruct (parts_written _ _ _ Hp Ho) as (p & q & y & -> & Hy).
  exists p, y, q. split; auto. rewrite Hv by auto. split; auto.
  destruct (container_frame w y Hw Hy) as [body ->].
  apply frame_header. rewrite !zlen_app in Hz. pose proof (zlen_nonneg p). pose proof (zlen_nonneg q). lia.
Qed.

(** ** Conformance *)
Lemma opt_all_some {A B} (f : A -> option B) l ms :
  opt_all (map f l) = Some ms -> Forall2 (fun x m => f x = Some m) l ms.
Proof.
  revert ms; induction l as [|x l IH]; intros ms H; simpl in H.
  - inversion H; constructor.
  - destruct (f x) eqn:Hf; [|discriminate]. destruct (opt_all (map f l)) eqn:Ho; [|discriminate].
    inversion H; subst. constructor; auto.
Qed.
Lemma i32_same n : i32_fits n = (- 2 ^ 31 <=? n) && (n <? 2 ^ 31).
Proof. unfold i32_fits; lia. Qed.

Lemma type_tag v m : doc_of E v = Some m -> writeBsonElementType v [] = [btag m].
Proof.
  destruct v; cbn [doc_of writeBsonElementType]; intros H; try (inversion H; subst; reflexivity).
  - destruct (opt_all _); inversion H; reflexivity.
  - destruct (opt_all _); inversion H; reflexivity.
  - rewrite i32_same. destruct (ext =? 17) eqn:H17; inversion H; subst; simpl; unfold BSON_Timestamp; rewrite H17; auto.
    destruct (_ && _); reflexivity.
  - destruct (x_totime E bits). destruct (i64_okb _); inversion H; reflexivity.
  - destruct (Z.eqb_spec ext 7); [subst; destruct (_ =? _); inversion H; reflexivity|].
    destruct (Z.eqb_spec ext 19); [subst; destruct (_ =? _); inversion H; reflexivity|].
    destruct (Z.eqb_spec ext 0); [subst; inversion H; reflexivity|].
    destruct (Z.eqb_spec ext 5); [subst; inversion H; reflexivity|discriminate].
  - destruct (Z.eqb_spec ext 5); [subst; destruct b; inversion H; reflexivity|].
    destruct (Z.eqb_spec ext 0); [subst; inversion H; reflexivity|discriminate].
Qed.
Lemma simple_payload v m : ~ container v -> doc_of E v = Some m ->
  writeSimpleBsonValue E v [] = Ok (payload m).
Proof.
  intros Hc. destruct v; cbn [doc_of writeSimpleBsonValue]; intros H; try (inversion H; subst; reflexivity);
    try (exfalso; apply Hc; exact I); unfold putLittI32, putLittI64; cbn [app].
  - inversion H; subst. cbn [payload]. rewrite i32_same. unfold BSON_Timestamp. destruct (ext =? 17).
    + cbn [payload]. unfold le. f_equal. symmetry. apply (le_bytes_mod 8).
    + destruct (_ && _); reflexivity.
  - destruct (x_totime E bits) as [sec nsec]. destruct (i64_okb (sec * 1000000000 + nsec)) eqn:Hi; inversion H; subst.
    cbn [payload]. unfold le, unix_millis, i64_okb in *. cbn [fst snd].
    destruct (Z.ltb_spec (sec * 1000000000 + nsec) (- 2 ^ 63)); [lia|].
    destruct (Z.ltb_spec (2 ^ 63 - 1) (sec * 1000000000 + nsec)); [lia|]. reflexivity.
  - unfold BSON_ObjectID, BSON_Decimal128.
    destruct (Z.eqb_spec ext 7).
    { destruct (Z.eqb_spec (zlen b) 12); inversion H; subst. cbn [payload].
      pose proof (take_app 12 b []) as Ht. rewrite app_nil_r in Ht. rewrite Ht by (unfold zlen in *; lia). reflexivity. }
    destruct (Z.eqb_spec ext 19).
    { destruct (Z.eqb_spec (zlen b) 16); inversion H; subst. cbn [payload].
      pose proof (take_app 16 b []) as Ht. rewrite app_nil_r in Ht. rewrite Ht by (unfold zlen in *; lia). reflexivity. }
    destruct (_ || _); inversion H; subst. reflexivity.
  - unfold BSON_Binary. destruct (Z.eqb_spec ext 5).
    { destruct b; inversion H; subst. cbn [payload]. unfold le. do 3 f_equal. rewrite zlen_cons; lia. }
    destruct (_ =? 0); inversion H; subst. reflexivity.
Qed.

Theorem conforms v m : doc_of E v = Some m -> ToBson E v [] = Ok (payload m).
Proof.
  revert m; induction v using value_ind'; intros m Hm;
    try (apply simple_payload; [intros []|exact Hm]).
  - rewrite ToBson_obj. cbn [doc_of] in Hm.
    destruct (opt_all _) as [ms|] eqn:Ho; inversion Hm; subst; clear Hm. apply opt_all_some in Ho.
    rewrite (obj_loop_app u kvs) by (apply Forall_forall; intros; apply ToBson_app).
    assert (Hl : obj_loop u kvs [] = Ok (elements ms)).
    { revert H; induction Ho as [|[k x] [k' m'] kvs ms Hx _ IH]; intros H; [reflexivity|].
      inversion H as [|? ? H1 H2]; subst. simpl in Hx, H1.
      destruct (doc_of E x) as [mx|] eqn:Hd; inversion Hx; subst.
      rewrite obj_loop_cons, ToBson_app, (H1 _ eq_refl). cbn [bind].
      rewrite (obj_loop_app u kvs) by (apply Forall_forall; intros; apply ToBson_app).
      rewrite (IH H2). cbn [bind]. rewrite (type_tag _ _ Hd).
      rewrite elements_cons. unfold element. cbn [fst snd app].
      f_equal. f_equal. rewrite <- !app_assoc. reflexivity. }
    rewrite Hl. cbn [bind]. rewrite close_app. reflexivity.
  - rewrite ToBson_arr. cbn [doc_of] in Hm.
    destruct (opt_all _) as [ms|] eqn:Ho; inversion Hm; subst; clear Hm. apply opt_all_some in Ho.
    rewrite (arr_loop_app 0 l) by (apply Forall_forall; intros; apply ToBson_app).
    assert (Hl : forall i, arr_loop i l [] = Ok (elements (number i ms))).
    { revert H; induction Ho as [|x mx l ms Hd _ IH]; intros H i; [reflexivity|].
      inversion H as [|? ? H1 H2]; subst.
      rewrite arr_loop_cons, ToBson_app, (H1 _ Hd). cbn [bind].
      rewrite (arr_loop_app _ l) by (apply Forall_forall; intros; apply ToBson_app).
      rewrite (IH H2). cbn [bind number]. rewrite (type_tag _ _ Hd).
      rewrite elements_cons. unfold element. cbn [fst snd app].
      f_equal. f_equal. rewrite <- !app_assoc. reflexivity. }
    rewrite Hl. cbn [bind]. rewrite close_app, payload_arr. reflexivity.
Qed.

Theorem Value2Bson_conforms v m dst : container v -> doc_of E v = Some m ->
  Value2Bson E v dst = Ok (dst ++ payload m).
Proof.
  intros Hc H. assert (Hv : Value2Bson E v dst = ToBson E v dst) by (destruct v; try destruct Hc; reflexivity).
  rewrite Hv, ToBson_app, (conforms _ _ H). reflexivity.
Qed.

(** ** Round trip *)
Lemma quot_ms ms : let (sec, nsec) := instant ms in Z.quot (sec * 1000000000 + nsec) 1000000 = ms.
Proof.
  unfold instant. cbn. replace (ms / 1000 * 1000000000 + ms mod 1000 * 1000000) with (ms * 1000000)
    by (pose proof (Z.div_mod ms 1000); lia).
  apply Z.quot_mul; lia.
Qed.

Lemma bplain_doc v : bplain E v ->
  exists m, doc_of E v = Some m /\ bwf m /\ readable E m /\ dates_ok m /\ btree E m = v.
Proof.
  induction v using value_ind'; cbn [bplain]; intros Hp; try contradiction.
  - destruct Hp as (-> & Hne & Ha & Hp).
    assert (Hms : exists ms, opt_all (map (fun kv => option_map (fun m => (if true then fst kv else x_unescape E (fst kv), m)) (doc_of E (snd kv))) kvs) = Some ms
      /\ map (fun kv => (fst kv, btree E (snd kv))) ms = kvs
      /\ fold_right (fun kv P => (bytes_ok (fst kv) /\ no_nul (fst kv)) /\ bwf (snd kv) /\ P) True ms
      /\ fold_right (fun kv P => readable E (snd kv) /\ P) True ms
      /\ fold_right (fun kv P => dates_ok (snd kv) /\ P) True ms).
    { clear Ha Hne. induction kvs as [|[k x] kvs IH]; [exists []; repeat split; auto|].
      inversion H as [|? ? H1 H2]; subst. simpl in Hp, H1. destruct Hp as (Hk & Hx & Hp).
      destruct (H1 Hx) as (m & Hd & Hw & Hr & Hdo & Ht). destruct (IH H2 Hp) as (ms & Ho & Hm & Hw' & Hr' & Hdo').
      exists ((k, m) :: ms). simpl. rewrite Hd. simpl. rewrite Ho. simpl. rewrite Hm, Ht. tauto. }
    destruct Hms as (ms & Ho & Hm & Hw & Hr & Hdo).
    exists (BDoc ms). cbn [doc_of]. rewrite Ho. split; auto.
    cbn [bwf readable dates_ok btree]. rewrite Hm. split; auto. split; auto.
    split; [intros ->; simpl in Hm; congruence|]. split; auto.
    unfold names_apart in *. clear - Ha Hm. revert kvs Ha Hm. induction ms as [|[k m] ms IH]; intros kvs Ha Hm; constructor.
    + subst kvs. simpl in Ha. inversion Ha; subst. rewrite Forall_map in H1. exact H1.
    + destruct kvs; [discriminate|]. simpl in Hm. inversion Hm; subst. inversion Ha; subst. apply (IH _ H2 eq_refl).
  - destruct Hp as (Hne & Hp).
    assert (Hms : exists ms, opt_all (map (doc_of E) l) = Some ms /\ map (btree E) ms = l
      /\ fold_right (fun x P => bwf x /\ P) True ms
      /\ fold_right (fun x P => readable E x /\ P) True ms
      /\ fold_right (fun x P => dates_ok x /\ P) True ms).
    { clear Hne. induction l as [|x l IH]; [exists []; repeat split; auto|].
      inversion H as [|? ? H1 H2]; subst. simpl in Hp. destruct Hp as (Hx & Hp).
      destruct (H1 Hx) as (m & Hd & Hw & Hr & Hdo & Ht). destruct (IH H2 Hp) as (ms & Ho & Hm & Hw' & Hr' & Hdo').
      exists (m :: ms). simpl. rewrite Hd, Ho. simpl. rewrite Hm, Ht. tauto. }
    destruct Hms as (ms & Ho & Hm & Hw & Hr & Hdo).
    exists (BArr ms). cbn [doc_of]. rewrite Ho. split; auto.
    cbn [bwf readable dates_ok btree]. rewrite Hm. split; auto. split; auto.
    split; [intros ->; simpl in Hm; congruence|auto].
  - exists (BStr s). repeat split; auto.
  - destruct Hp as [(-> & Hi & Hn)|[-> Hi]]; cbn [doc_of]; eexists; (split; [reflexivity|]); unfold i64_ok in *.
    + simpl (0 =? 17). cbv iota. destruct ((- 2 ^ 31 <=? n) && (n <? 2 ^ 31)) eqn:Hr.
      * cbn [bwf readable dates_ok btree]. repeat split; auto; try lia. f_equal. apply Z.mod_small. lia.
      * cbn [bwf readable dates_ok btree]. repeat split; auto; lia.
    + simpl (17 =? 17). cbv iota. cbn [bwf readable dates_ok btree]. repeat split; auto; try lia.
      f_equal. destruct (Z.ltb_spec (n mod 2 ^ 64) (2 ^ 63)); lia.
  - exists (BDouble r). repeat split; auto; lia.
  - destruct Hp as (ms & Hi & Ht & Hd). exists (BDate ms). cbn [doc_of]. rewrite Ht.
    pose proof (quot_ms ms) as Hq. destruct (instant ms) as [sec nsec] eqn:Hin.
    assert (Hns : sec * 1000000000 + nsec = ms * 1000000).
    { unfold instant in Hin. inversion Hin. pose proof (Z.div_mod ms 1000). lia. }
    unfold i64_okb. unfold i64_ok in Hi.
    replace ((- 2 ^ 63 <=? sec * 1000000000 + nsec) && (sec * 1000000000 + nsec <? 2 ^ 63)) with true by lia.
    rewrite Hq. cbn [bwf readable dates_ok btree]. rewrite Hin, Hd. unfold i64_ok. repeat split; auto; lia.
  - destruct Hp as (Hb & [(-> & Hl)|(-> & Hl)]); cbn [doc_of].
    + exists (BOid b). rewrite Hl. simpl. auto.
    + exists (BDec b). rewrite Hl. simpl. auto.
  - exists BNull. simpl. auto.
  - exists (BBool true). simpl. auto.
  - exists (BBool false). simpl. auto.
Qed.

Theorem round_trip v dst out rest : index_parser_ok E -> bplain E v ->
  (exists u kvs, v = VObject u kvs) ->
  Value2Bson E v [] = Ok out -> zlen out < 2 ^ 32 ->
  Value2Bson E v dst = Ok (dst ++ out) /\ NewValueFromBson E (out ++ rest) = Ok v.
Proof.
  intros Hx Hp (u & kvs & Hv) Ho Hz.
  destruct (bplain_doc v Hp) as (m & Hd & Hw & Hr & Hdo & Ht).
  assert (Hc : container v) by (subst v; exact I).
  pose proof (Value2Bson_conforms v m [] Hc Hd) as H0. rewrite Ho in H0. cbn [app] in H0.
  assert (out = payload m) by congruence. subst out.
  split; [apply Value2Bson_conforms; auto|].
  assert (Hm : exists ms, m = BDoc ms).
  { subst v. cbn [doc_of] in Hd. destruct (opt_all _); inversion Hd; eauto. }
  destruct Hm as [ms ->]. rewrite decode_doc; auto. rewrite Ht; reflexivity.
Qed.
Theorem round_trip_any kvs u m rest : index_parser_ok E ->
  doc_of E (VObject u kvs) = Some m ->
  bwf m -> readable E m -> dates_ok m -> zlen (payload m) < 2 ^ 32 ->
  exists out, Value2Bson E (VObject u kvs) [] = Ok out /\ NewValueFromBson E (out ++ rest) = Ok (btree E m).
Proof.
  intros Hx Hd Hw Hr Hdo Hz. exists (payload m). split; [apply (Value2Bson_conforms _ m []); auto; exact I|].
  cbn [doc_of] in Hd. destruct (opt_all _); inversion Hd; subst. apply decode_doc; auto.
Qed.
End Enc.
