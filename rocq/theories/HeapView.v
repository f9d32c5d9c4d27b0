(** A computable reading of heap values, for concrete cases. *)
From Verif Require Import Base Values HeapModel HeapSpec.

Fixpoint all_some {A B} (f : A -> option B) (l : list A) : option (list B) :=
  match l with
  | [] => Some []
  | a :: r => match f a, all_some f r with Some b, Some bs => Some (b :: bs) | _, _ => None end
  end.
Fixpoint view (n : nat) (h : nat -> cell) (p : ptr) {struct n} : option value :=
  match n with
  | O => None
  | S n' =>
      match p with
      | None => Some VNilP
      | Some l =>
          let c := h l in
          match c_dt c with
          | TObject => match all_some (fun kp => match view n' h (snd kp) with Some v => Some (fst kp, v) | None => None end) (c_kvs c) with
                       | Some vs => Some (VObject (c_unesc c) vs) | None => None end
          | TArray => match all_some (view n' h) (c_arr c) with Some vs => Some (VArray vs) | None => None end
          | TString => Some (VString (c_str c))
          | TRaw => Some (VRawString (c_str c))
          | TInt => Some (VInt (c_ext c) (to_i64 (c_sv c)))
          | TFloat => Some (VFloat (c_sv c))
          | TDouble => Some (VDouble (c_sv c))
          | TDateTime => Some (VDateTime (c_sv c))
          | TBinary => Some (VBinary (c_ext c) (c_bin c))
          | TExBinary => Some (VExBinary (c_ext c) (c_bin c))
          | TNull => Some VNull
          | TTrue => Some VTrue
          | TFalse => Some VFalse
          | TNan => Some VNan
          | TInf => Some VInf
          end
      end
  end.
Lemma all_some_F2 {A B} (f : A -> option B) (R : A -> B -> Prop) l : (forall a b, f a = Some b -> R a b) ->
  forall bs, all_some f l = Some bs -> Forall2 R l bs.
Proof.
  intros H. induction l as [|a l IH]; intros bs Q; cbn [all_some] in Q.
  - injection Q as <-. constructor.
  - destruct (f a) eqn:QA; [|discriminate]. destruct (all_some f l); [|discriminate]. injection Q as <-. constructor; auto.
Qed.
Lemma view_rep n : forall h p v, view n h p = Some v -> rep h p v.
Proof.
  induction n as [|n IH]; intros h p v H; [discriminate|]. cbn [view] in H. destruct p as [l|]; [|injection H as <-; constructor].
  destruct (c_dt (h l)) eqn:T;
    try (injection H as <-; constructor; exact T).
  - destruct (all_some _ (c_kvs (h l))) as [vs|] eqn:Q; [|discriminate]. injection H as <-. constructor; auto.
    refine (all_some_F2 _ _ _ _ _ Q). intros [k q] [k' w] X. cbn [fst snd] in *.
    destruct (view n h q) eqn:V; [|discriminate]. injection X as <- <-. auto.
  - destruct (all_some _ (c_arr (h l))) as [vs|] eqn:Q; [|discriminate]. injection H as <-. constructor; auto.
    refine (all_some_F2 _ _ _ _ _ Q). intros q w X. auto.
Qed.
