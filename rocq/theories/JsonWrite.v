(** The JSON writers produce texts of the dialect, and these read back. *)
From Coq Require Import String.
From Verif Require Import Base Values Tactics JsonModel JsonSpec JsonLex JsonParse JsonSound.

(** ** Decimal integers are number tokens *)
Lemma dec_digits_bytes f : forall n acc, 0 <= n -> Forall digit acc ->
  Forall digit (dec_digits f n acc) /\ (f <> 0%nat -> dec_digits f n acc <> []).
Proof.
  induction f as [|f IH]; intros n acc Hn Ha; cbn [dec_digits]; [split; auto; lia|].
  destruct (Z.ltb_spec n 10).
  - split; [constructor; auto; unfold digit; lia|discriminate].
  - assert (Hd : digit (48 + n mod 10)) by (unfold digit; lia).
    assert (Hq : 0 <= n / 10) by (apply Z.div_pos; lia).
    destruct (IH (n / 10) ((48 + n mod 10) :: acc) Hq (Forall_cons _ Hd Ha)) as [H1 H2].
    split; auto. intros _. destruct f; [discriminate|]. apply H2; lia.
Qed.
Lemma dec_nat_bytes n : 0 <= n -> Forall digit (dec_nat n) /\ dec_nat n <> [].
Proof.
  intros Hn. unfold dec_nat. destruct (dec_digits_bytes (S (Z.to_nat (Z.log2 n))) n [] Hn) as [H1 H2].
  - constructor.
  - split; auto.
Qed.
Lemma fmt_int_number n : number (fmt_int n) /\ ~ In 46 (fmt_int n).
Proof.
  assert (Hdig : forall d, Forall digit d -> Forall number_byte d)
    by (intros d; apply Forall_impl; intros a Ha; left; auto).
  assert (Hdot : forall d, Forall digit d -> ~ In 46 d).
  { intros d Hd Hi. rewrite Forall_forall in Hd. specialize (Hd _ Hi). unfold digit in Hd. lia. }
  unfold fmt_int. destruct (Z.ltb_spec n 0).
  - destruct (dec_nat_bytes (- n)) as [H1 H2]; [lia|]. split.
    + repeat split; try discriminate; [intros Hx; injection Hx; auto|].
      constructor; auto. right; simpl; auto.
    + intros [|Hi]; [discriminate|]. eapply Hdot; eauto.
  - destruct (dec_nat_bytes n) as [H1 H2]; [lia|]. split; [|apply Hdot; auto].
    repeat split; auto; intros Hx; rewrite Hx in H1; inversion H1 as [|? ? Hd _]; subst;
      unfold digit in Hd; lia.
Qed.

(** ** Padding with whitespace *)
Lemma crlf_ws : ws [13; 10].
Proof. repeat constructor; unfold ws; simpl; tauto. Qed.
Lemma crlf2_ws : ws [13; 10; 13; 10].
Proof. apply (Forall_app _ [13; 10] [13; 10]); split; apply crlf_ws. Qed.
Lemma member_pad k x b p q : dmember k x b -> ws p -> ws q -> dmember k x (p ++ b ++ q).
Proof.
  intros H Hp Hq. destruct H as [w1 k w2 w3 x bx w4 H1 H2 H3 H4 H5 H6].
  replace (p ++ (w1 ++ [34] ++ k ++ [34] ++ w2 ++ [58] ++ w3 ++ bx ++ w4) ++ q)
    with ((p ++ w1) ++ [34] ++ k ++ [34] ++ w2 ++ [58] ++ w3 ++ bx ++ (w4 ++ q))
    by (apps; auto).
  constructor; auto; apply Forall_app; auto.
Qed.
Lemma members_pad ms b : dmembers ms b -> forall p q, ws p -> ws q -> dmembers ms (p ++ b ++ q).
Proof.
  induction 1 as [k x b H|k x b ms bm H _ IH]; intros p q Hp Hq.
  - apply members_one, member_pad; auto.
  - replace (p ++ (b ++ [44] ++ bm) ++ q) with ((p ++ b ++ []) ++ [44] ++ ([] ++ bm ++ q))
      by (rewrite ?app_nil_r; apps; auto).
    apply members_more; [apply member_pad; auto; constructor|]. apply IH; auto. constructor.
Qed.
Lemma elems_pad xs b : delems xs b -> forall p q, ws p -> ws q -> delems xs (p ++ b ++ q).
Proof.
  induction 1 as [w1 x bx w2 H1 H2 H3|w1 x bx w2 xs b H1 H2 H3 _ IH]; intros p q Hp Hq.
  - replace (p ++ (w1 ++ bx ++ w2) ++ q) with ((p ++ w1) ++ bx ++ (w2 ++ q)) by (apps; auto).
    apply elems_one; auto; apply Forall_app; auto.
  - replace (p ++ ((w1 ++ bx ++ w2) ++ [44] ++ b) ++ q) with
      (((p ++ w1) ++ bx ++ w2) ++ [44] ++ ([] ++ b ++ q)) by (apps; auto).
    apply elems_more; auto; [apply Forall_app; auto|]. apply IH; auto. constructor.
Qed.

(** ** The loops of the writers *)
Section Loops.
  Variable W : value -> bytes -> res bytes.   (* writer for one value *)
  Variable K : bytes -> bytes.                (* text of a key *)
  Variables sep pre : bytes.                  (* between members; before each member *)
  Fixpoint obj_go (first : bool) (l : list (bytes * value)) (dst : bytes) : res bytes :=
    match l with
    | [] => Ok dst
    | (k, x) :: r =>
        let dst := dst ++ (if first then [34] else [44; 34]) in
        let dst := dst ++ K k ++ [34; 58] in
        do dst <- W x dst;
        obj_go false r dst
    end.
  Fixpoint arr_go (first : bool) (l : list value) (dst : bytes) : res bytes :=
    match l with
    | [] => Ok dst
    | x :: r =>
        let dst := if first then dst else dst ++ [44] in
        do dst <- match x with VNilP => Ok (dst ++ bs "null") | _ => W x dst end;
        arr_go false r dst
    end.
  Fixpoint fobj_go (ind : bytes) (first : bool) (l : list (bytes * value)) (dst : bytes) : res bytes :=
    match l with
    | [] => Ok dst
    | (k, x) :: r =>
        let dst := if first then dst else dst ++ [44; 13; 10] in
        let dst := dst ++ ind ++ [34] in
        let dst := dst ++ K k ++ [34; 58] in
        do dst <- W x dst;
        fobj_go ind false r dst
    end.
  Fixpoint farr_go (ind : bytes) (first : bool) (l : list value) (dst : bytes) : res bytes :=
    match l with
    | [] => Ok dst
    | x :: r =>
        let dst := if first then dst else dst ++ [44; 13; 10] in
        let dst := dst ++ ind in
        do dst <- match x with VNilP => Ok (dst ++ bs "null") | _ => W x dst end;
        farr_go ind false r dst
    end.

  Variable T : value -> jtree.
  Definition writes (x : value) : Prop :=
    exists b, (forall dst, W x dst = Ok (dst ++ b)) /\ dialect (T x) b.
  Definition writes_elem (x : value) : Prop :=
    exists b, (forall dst, match x with VNilP => Ok (dst ++ bs "null") | _ => W x dst end = Ok (dst ++ b)) /\
      dialect (match x with VNilP => JNull | _ => T x end) b.
  Definition T_elem (x : value) : jtree := match x with VNilP => JNull | _ => T x end.

  Lemma obj_go_ok kvs : Forall (fun kv => d_key (K (fst kv)) /\ writes (snd kv)) kvs -> kvs <> [] ->
    exists bm, (forall dst first, obj_go first kvs dst = Ok (dst ++ (if first then [] else [44]) ++ bm)) /\
      dmembers (map (fun kv => (K (fst kv), T (snd kv))) kvs) bm.
  Proof.
    induction 1 as [|[k x] r [Hk Hx] Hr IH]; intros Hne; [congruence|].
    destruct Hx as (bx & Hbx & Hd). cbn [fst snd] in *.
    set (m := [] ++ [34] ++ K k ++ [34] ++ [] ++ [58] ++ [] ++ bx ++ []).
    assert (Hm : dmember (K k) (T x) m) by (constructor; auto; constructor).
    assert (Hstep : forall dst (first : bool), obj_go first ((k, x) :: r) dst =
       obj_go false r (dst ++ (if first then [] else [44]) ++ m)).
    { intros dst first. cbn [obj_go]. rewrite Hbx. cbn [bind]. f_equal. unfold m.
      rewrite app_nil_r. destruct first; apps; auto. }
    destruct r as [|kv r].
    - exists m. split; [intros; rewrite Hstep; reflexivity|]. apply members_one; auto.
    - destruct IH as (bm & Hbm & Hms); [discriminate|]. exists (m ++ [44] ++ bm). split.
      + intros dst first. rewrite Hstep, Hbm. f_equal. apps. auto.
      + cbn [map]. apply members_more; auto.
  Qed.
  Lemma arr_go_ok l : Forall writes_elem l -> l <> [] ->
    exists bm, (forall dst first, arr_go first l dst = Ok (dst ++ (if first then [] else [44]) ++ bm)) /\
      delems (map T_elem l) bm.
  Proof.
    induction 1 as [|x r Hx Hr IH]; intros Hne; [congruence|].
    destruct Hx as (bx & Hbx & Hd). set (m := [] ++ bx ++ []).
    assert (Hstep : forall dst (first : bool), arr_go first (x :: r) dst =
       arr_go false r (dst ++ (if first then [] else [44]) ++ m)).
    { intros dst first. cbn [arr_go]. rewrite Hbx. cbn [bind]. f_equal. unfold m.
      rewrite app_nil_r. destruct first; apps; auto. }
    destruct r as [|y r].
    - exists m. split; [intros; rewrite Hstep; reflexivity|]. apply elems_one; auto; constructor.
    - destruct IH as (bm & Hbm & Hms); [discriminate|]. exists (m ++ [44] ++ bm). split.
      + intros dst first. rewrite Hstep, Hbm. f_equal. apps. auto.
      + cbn [map]. apply elems_more; auto; constructor.
  Qed.
  Lemma fobj_go_ok ind kvs : ws ind ->
    Forall (fun kv => d_key (K (fst kv)) /\ writes (snd kv)) kvs -> kvs <> [] ->
    exists bm, (forall dst first, fobj_go ind first kvs dst = Ok (dst ++ (if first then [] else [44; 13; 10]) ++ bm)) /\
      dmembers (map (fun kv => (K (fst kv), T (snd kv))) kvs) bm.
  Proof.
    intros Hind. induction 1 as [|[k x] r [Hk Hx] Hr IH]; intros Hne; [congruence|].
    destruct Hx as (bx & Hbx & Hd). cbn [fst snd] in *.
    set (m := ind ++ [34] ++ K k ++ [34] ++ [] ++ [58] ++ [] ++ bx ++ []).
    assert (Hm : dmember (K k) (T x) m) by (constructor; auto; constructor).
    assert (Hstep : forall dst (first : bool), fobj_go ind first ((k, x) :: r) dst =
       fobj_go ind false r (dst ++ (if first then [] else [44; 13; 10]) ++ m)).
    { intros dst first. cbn [fobj_go]. rewrite Hbx. cbn [bind]. f_equal. unfold m.
      rewrite app_nil_r. destruct first; apps; auto. }
    destruct r as [|kv r].
    - exists m. split; [intros; rewrite Hstep; reflexivity|]. apply members_one; auto.
    - destruct IH as (bm & Hbm & Hms); [discriminate|].
      exists (m ++ [44] ++ ([13; 10] ++ bm ++ [])). split.
      + intros dst first. rewrite Hstep, Hbm, app_nil_r. f_equal. apps. auto.
      + cbn [map]. apply members_more; auto. apply members_pad; auto; first [apply crlf_ws | apply crlf2_ws | constructor].
  Qed.
  Lemma farr_go_ok ind l : ws ind -> Forall writes_elem l -> l <> [] ->
    exists bm, (forall dst first, farr_go ind first l dst = Ok (dst ++ (if first then [] else [44; 13; 10]) ++ bm)) /\
      delems (map T_elem l) bm.
  Proof.
    intros Hind. induction 1 as [|x r Hx Hr IH]; intros Hne; [congruence|].
    destruct Hx as (bx & Hbx & Hd). set (m := ind ++ bx ++ []).
    assert (Hstep : forall dst (first : bool), farr_go ind first (x :: r) dst =
       farr_go ind false r (dst ++ (if first then [] else [44; 13; 10]) ++ m)).
    { intros dst first. cbn [farr_go]. rewrite Hbx. cbn [bind]. f_equal. unfold m.
      rewrite app_nil_r. destruct first; apps; auto. }
    destruct r as [|y r].
    - exists m. split; [intros; rewrite Hstep; reflexivity|]. apply elems_one; auto; constructor.
    - destruct IH as (bm & Hbm & Hms); [discriminate|].
      exists (m ++ [44] ++ ([13; 10] ++ bm ++ [])). split.
      + intros dst first. rewrite Hstep, Hbm, app_nil_r. f_equal. apps. auto.
      + cbn [map]. apply elems_more; auto; [constructor|]. apply elems_pad; auto; first [apply crlf_ws | apply crlf2_ws | constructor].
  Qed.
End Loops.

Lemma Value2Json_obj E st dt u kvs dst : Value2Json E st dt (VObject u kvs) dst =
  do d <- obj_go (Value2Json E st dt) (json_key E st u) true kvs (dst ++ [123]); Ok (d ++ [125]).
Proof. reflexivity. Qed.
Lemma Value2Json_arr E st dt l dst : Value2Json E st dt (VArray l) dst =
  do d <- arr_go (Value2Json E st dt) true l (dst ++ [91]); Ok (d ++ [93]).
Proof. reflexivity. Qed.
Lemma formatValue_obj E st dt lv u kvs dst : formatValue E st dt lv (VObject u kvs) dst =
  do d <- fobj_go (formatValue E st dt (S lv)) (json_key E st u) (indent (S lv)) true kvs (dst ++ [123; 13; 10]);
  Ok (d ++ [13; 10] ++ indent lv ++ [125]).
Proof.
  cbn [formatValue]. f_equal. generalize (dst ++ [123; 13; 10]). generalize true.
  induction kvs as [|[k x] r IH]; intros first d; cbn [fobj_go]; [reflexivity|].
  destruct (formatValue E st dt (S lv) x _); cbn [bind]; auto.
Qed.
Lemma formatValue_arr E st dt lv l dst : formatValue E st dt lv (VArray l) dst =
  do d <- farr_go (formatValue E st dt (S lv)) (indent (S lv)) true l (dst ++ [91; 13; 10]);
  Ok (d ++ [13; 10] ++ indent lv ++ [93]).
Proof.
  cbn [formatValue]. f_equal. generalize (dst ++ [91; 13; 10]). intros d. revert d.
  match goal with |- forall d, ?f true l d = ?g true l d =>
    enough (H : forall first d, f first l d = g first l d) by (intros; apply H) end.
  induction l as [|x r IH]; intros first d; cbn [farr_go]; [reflexivity|].
  destruct x;
    (match goal with |- bind ?a _ = bind ?b _ => change b with a; destruct a end; cbn [bind]; auto).
Qed.
Lemma indent_ws n : ws (indent n).
Proof. induction n; cbn [indent]; [constructor|]. repeat (constructor; [simpl; tauto|]). auto. Qed.

(** ** What a written value denotes *)
Definition esc_of (st : escape_style) : option bool :=
  match st with JSE_NoEscape => None | JSE_AllEscape => Some true | JSE_OnlyAnsiChar => Some false end.
Lemma key_same E st u k : json_key E st u k = key_text E (esc_of st) u k.
Proof. destruct st, u; reflexivity. Qed.
Lemma str_same E st s : json_str E st s = str_text E (esc_of st) s.
Proof. destruct st; reflexivity. Qed.

Fixpoint jtree_of (E : env) (esc : option bool) (dt : bool) (v : value) : jtree :=
  match v with
  | VObject u kvs => JObject (map (fun kv => (key_text E esc u (fst kv), jtree_of E esc dt (snd kv))) kvs)
  | VArray l => JArray (map (fun x => match x with VNilP => JNull | _ => jtree_of E esc dt x end) l)
  | VString s => JString (str_text E esc s)
  | VRawString s => JString s
  | VInt _ n => JNumber (fmt_int n)
  | VFloat r => JNumber (x_fmt_f64 E (x_f32_to_f64 E (r mod 2 ^ 32)))
  | VDouble d => JNumber (x_fmt_f64 E d)
  | VDateTime d => JString (date_text E dt d)
  | VTrue => JTrue | VFalse => JFalse | _ => JNull
  end.

Ltac scalar_written :=
  eexists; split; [intros dst; reflexivity|]; constructor; constructor; auto.

Lemma written E st dt v : writable E (esc_of st) dt v ->
  writes (Value2Json E st dt) (jtree_of E (esc_of st) dt) v /\
  forall lv, writes (formatValue E st dt lv) (jtree_of E (esc_of st) dt) v.
Proof.
  induction v using value_ind'; cbn [writable jtree_of]; intros Hw; try contradiction;
    try solve [split; intros; scalar_written].
  - (* objects *)
    assert (Hkv : Forall (fun kv => d_key (json_key E st u (fst kv)) /\
       writes (Value2Json E st dt) (jtree_of E (esc_of st) dt) (snd kv) /\
       forall lv, writes (formatValue E st dt lv) (jtree_of E (esc_of st) dt) (snd kv)) kvs).
    { apply Forall_fold_right in Hw. rewrite Forall_forall in *. intros kv Hi.
      destruct (Hw kv Hi) as [H1 H2]. rewrite key_same. split; auto. }
    assert (Hmap : map (fun kv => (json_key E st u (fst kv), jtree_of E (esc_of st) dt (snd kv))) kvs =
      map (fun kv => (key_text E (esc_of st) u (fst kv), jtree_of E (esc_of st) dt (snd kv))) kvs)
      by (apply map_ext; intros; rewrite key_same; auto).
    split.
    + destruct kvs as [|kv r] eqn:Hk.
      * exists [123; 125]. split; [intros; rewrite Value2Json_obj; cbn [obj_go bind]; apps; auto|].
        apply (json_empty_obj _ _ []). constructor.
      * rewrite <- Hk in *.
        destruct (obj_go_ok (Value2Json E st dt) (json_key E st u) (jtree_of E (esc_of st) dt) kvs)
          as (bm & Hbm & Hms); [eapply Forall_impl; [|exact Hkv]; intros kv' (? & ? & ?); auto|subst; discriminate|].
        exists ([123] ++ bm ++ [125]). split.
        -- intros dst. rewrite Value2Json_obj, Hbm. cbn [bind]. f_equal. apps. auto.
        -- cbn [jtree_of]. rewrite <- Hmap. apply json_obj; auto.
    + intros lv. destruct kvs as [|kv r] eqn:Hk.
      * exists ([123] ++ ([13; 10; 13; 10] ++ indent lv) ++ [125]). split.
        -- intros; rewrite formatValue_obj; cbn [fobj_go bind]. f_equal. apps. auto.
        -- apply json_empty_obj. apply Forall_app; split; [|apply indent_ws].
           first [apply crlf_ws | apply crlf2_ws | constructor].
      * rewrite <- Hk in *.
        destruct (fobj_go_ok (formatValue E st dt (S lv)) (json_key E st u) (jtree_of E (esc_of st) dt)
          (indent (S lv)) kvs) as (bm & Hbm & Hms);
          [apply indent_ws|eapply Forall_impl; [|exact Hkv]; intros kv' (? & ? & ?); auto|subst; discriminate|].
        exists ([123] ++ ([13; 10] ++ bm ++ ([13; 10] ++ indent lv)) ++ [125]). split.
        -- intros dst. rewrite formatValue_obj, Hbm. cbn [bind]. f_equal. apps. auto.
        -- cbn [jtree_of]. rewrite <- Hmap. apply json_obj. apply members_pad; auto.
           ++ first [apply crlf_ws | apply crlf2_ws | constructor].
           ++ apply Forall_app; split; [|apply indent_ws]. first [apply crlf_ws | apply crlf2_ws | constructor].
  - (* arrays *)
    assert (Hl : Forall (fun x => writes_elem (Value2Json E st dt) (jtree_of E (esc_of st) dt) x /\
       forall lv, writes_elem (formatValue E st dt lv) (jtree_of E (esc_of st) dt) x) l).
    { apply Forall_fold_right in Hw. rewrite Forall_forall in *. intros x Hi.
      specialize (Hw x Hi). specialize (H x Hi). unfold writes_elem, writes in *.
      destruct x; try (apply H; exact Hw).
      split; [|intros lv]; exists (bs "null"); (split; [reflexivity|constructor; constructor]). }
    split.
    + destruct l as [|y r] eqn:Hk.
      * exists [91; 93]. split; [intros; rewrite Value2Json_arr; cbn [arr_go bind]; apps; auto|].
        apply (json_empty_arr _ _ []). constructor.
      * rewrite <- Hk in *.
        destruct (arr_go_ok (Value2Json E st dt) (jtree_of E (esc_of st) dt) l)
          as (bm & Hbm & Hms); [eapply Forall_impl; [|exact Hl]; intros x' (? & ?); auto|subst; discriminate|].
        exists ([91] ++ bm ++ [93]). split.
        -- intros dst. rewrite Value2Json_arr, Hbm. cbn [bind]. f_equal. apps. auto.
        -- apply json_arr; auto.
    + intros lv. destruct l as [|y r] eqn:Hk.
      * exists ([91] ++ ([13; 10; 13; 10] ++ indent lv) ++ [93]). split.
        -- intros; rewrite formatValue_arr; cbn [farr_go bind]. f_equal. apps. auto.
        -- apply json_empty_arr. apply Forall_app; split; [|apply indent_ws].
           first [apply crlf_ws | apply crlf2_ws | constructor].
      * rewrite <- Hk in *.
        destruct (farr_go_ok (formatValue E st dt (S lv)) (jtree_of E (esc_of st) dt)
          (indent (S lv)) l) as (bm & Hbm & Hms);
          [apply indent_ws|eapply Forall_impl; [|exact Hl]; intros x' (? & ?); auto|subst; discriminate|].
        exists ([91] ++ ([13; 10] ++ bm ++ ([13; 10] ++ indent lv)) ++ [93]). split.
        -- intros dst. rewrite formatValue_arr, Hbm. cbn [bind]. f_equal. apps. auto.
        -- apply json_arr. apply elems_pad; auto.
           ++ first [apply crlf_ws | apply crlf2_ws | constructor].
           ++ apply Forall_app; split; [|apply indent_ws]. first [apply crlf_ws | apply crlf2_ws | constructor].
  - split; intros; (eexists; split; [intros dst; reflexivity|]); constructor; rewrite str_same; constructor; auto.
  - split; intros; (eexists; split; [intros dst; reflexivity|]); constructor; constructor; apply fmt_int_number.
Qed.

(** ** Round trip *)
Lemma jplain_writable E st dt all v : esc_of st = Some all -> jplain E all v -> writable E (esc_of st) dt v.
Proof.
  intros Hst. rewrite Hst. induction v using value_ind'; cbn [jplain writable str_text]; intros Hp; try tauto.
  - apply Forall_fold_right in Hp. apply Forall_fold_right. rewrite Forall_forall in *.
    intros kv Hi. destruct (Hp kv Hi) as [H1 H2]. split; [|apply H; auto].
    unfold d_key, key_text. destruct u; tauto.
  - apply Forall_fold_right in Hp. apply Forall_fold_right. rewrite Forall_forall in *.
    intros x Hi. specialize (Hp x Hi). specialize (H x Hi Hp). destruct x; auto.
Qed.

Lemma jplain_denote E dt all v : int_parser_ok E -> jplain E all v ->
  denote E (tree_of E (jtree_of E (Some all) dt v)) = denote E v.
Proof.
  intros Hint. induction v using value_ind'; cbn [jplain]; intros Hp; try contradiction; try reflexivity.
  - apply Forall_fold_right in Hp. cbn [jtree_of tree_of denote]. f_equal. rewrite !map_map.
    apply map_ext_in. intros kv Hi. cbn [fst snd]. rewrite Forall_forall in *.
    destruct (Hp kv Hi) as [H1 H2]. rewrite (H kv Hi H2). f_equal.
    unfold key_text. destruct u; tauto.
  - apply Forall_fold_right in Hp. cbn [jtree_of tree_of denote]. f_equal. rewrite !map_map.
    apply map_ext_in. intros x Hi. rewrite Forall_forall in *. specialize (Hp x Hi).
    specialize (H x Hi Hp). destruct x; auto.
  - destruct Hp as (H1 & H2 & H3). cbn [jtree_of tree_of str_text]. rewrite H3. cbn [denote]. congruence.
  - destruct Hp as (H1 & H3). cbn [jtree_of tree_of]. rewrite H3. reflexivity.
  - cbn [jtree_of tree_of]. destruct (in_dec Z.eq_dec 46 (fmt_int n)) as [Hd|Hd].
    + exfalso. apply (proj2 (fmt_int_number n)); auto.
    + cbn [denote]. rewrite Hint; auto.
Qed.

Definition top_int (v : value) : Prop := match v with VInt _ _ => True | _ => False end.

Lemma json_roundtrip E st dt all v w : int_parser_ok E -> esc_of st = Some all -> jplain E all v ->
  ws w -> (top_int v -> w <> []) ->
  exists b v', Value2Json E st dt v [] = Ok b /\ NewValueFromJson E (b ++ w) = Ok v' /\
    denote E v' = denote E v.
Proof.
  intros Hint Hst Hp Hw Hn. pose proof (jplain_writable E st dt all v Hst Hp) as Hwr.
  destruct (written E st dt v Hwr) as [(b & Hb & Hd) _].
  exists b, (tree_of E (jtree_of E (esc_of st) dt v)). split; [apply Hb|]. split.
  - apply accepted_iff; [apply tree_not_nil|].
    exists [], (jtree_of E (esc_of st) dt v), b, w. repeat split; auto; [constructor|].
    intros Hnum. apply Hn. destruct v; try contradiction Hp; try contradiction Hnum. exact I.
  - rewrite Hst. apply jplain_denote; auto.
Qed.

(** ** Compact and formatted texts read alike *)
Lemma number_top E lex w : number lex -> ws w -> w = [] -> NewValueFromJson E (lex ++ w) = Ok VNilP.
Proof.
  intros (H1 & _ & _ & H2) _ ->. apply nil_iff. exists [], lex. rewrite app_nil_r.
  repeat split; auto. constructor.
Qed.
Lemma is_number_scalar t b : dialect t b -> is_number t -> d_scalar t b /\ exists lex, number lex /\ b = lex.
Proof.
  intros H. destruct H as [t b H| | | |]; intros Hn; try contradiction.
  split; auto. destruct H; try contradiction. eauto.
Qed.
Lemma is_number_dec t : is_number t \/ ~ is_number t.
Proof. destruct t; simpl; tauto. Qed.
Lemma same_tree E t b1 b2 : dialect t b1 -> dialect t b2 ->
  NewValueFromJson E b1 = NewValueFromJson E b2.
Proof.
  intros H1 H2. destruct (is_number_dec t) as [Hn|Hn].
  - destruct (is_number_scalar _ _ H1 Hn) as (_ & l1 & Hl1 & ->).
    destruct (is_number_scalar _ _ H2 Hn) as (_ & l2 & Hl2 & ->).
    pose proof (number_top E l1 [] Hl1 (Forall_nil _) eq_refl) as R1.
    pose proof (number_top E l2 [] Hl2 (Forall_nil _) eq_refl) as R2.
    rewrite app_nil_r in R1, R2. congruence.
  - assert (R : forall b, dialect t b -> NewValueFromJson E b = Ok (tree_of E t)).
    { intros b Hb. apply accepted_iff; [apply tree_not_nil|]. exists [], t, b, [].
      rewrite app_nil_r. repeat split; auto; constructor. }
    rewrite !R; auto.
Qed.

Lemma format_same E st dt v dst : writable E (esc_of st) dt v ->
  exists bc bf, Value2Json E st dt v dst = Ok (dst ++ bc) /\
    Value2FormatJson E st dt v dst = Ok (dst ++ bf) /\
    NewValueFromJson E bf = NewValueFromJson E bc /\
    exists t, dialect t bc /\ dialect t bf.
Proof.
  intros Hw. destruct (written E st dt v Hw) as [(bc & Hc & Hdc) Hf].
  destruct (Hf 0%nat) as (bf & Hfb & Hdf). exists bc, bf.
  repeat split; [apply Hc|apply Hfb|eapply same_tree; eauto|eauto].
Qed.
