(** What decoding with registered functions is compared with. *)
From Verif Require Import Base Values HeapModel HeapSpec GetModel ExportModel ExportSpec HandlerModel.

Section Spec.
Variable E : env.
Variable T : tenv.
(** Types with a [DecodeFromDxValue]; and what registered functions do, on trees. *)
Variable meth : htype -> bool.
Variable pure : htype -> option (bool -> slot -> value -> option slot).

(** The content of a variable of type [t] after a value was decoded into it.  A field of a type with a
    method keeps its content; one of a registered type gets what the function makes of its content;
    the other fields as in ExportSpec.v. *)
Fixpoint hconv (ic : bool) (t : htype) (ro : bool) (d : slot) (v : value) {struct t} : option slot :=
  match t with
  | HBase b => conv E T ic (erase_base b) ro d v
  | HName _ t' => hconv ic t' ro d v
  | HSlice et =>
      match v, d with
      | VNilP, _ => None
      | VArray (_ :: _), LSlice (S _) _ => None
      | VArray ((_ :: _) as l), LSlice O _ =>
          if ro then None
          else
            match meth et, pure et with
            | false, None =>
                match under et with
                | HBase BTime => None
                | HBase BSkip => Some (LSlice (length l) (repeat LSkip (length l)))
                | _ => match all_of (hconv ic et false (zero (erase et))) l with
                       | Some ds => Some (LSlice (length l) ds)
                       | None => None
                       end
                end
            | _, _ => None
            end
      | _, _ => Some d
      end
  | HStruct fs =>
      match v with
      | VNilP => None
      | _ =>
        match d with
        | LStruct ds =>
            match (fix go (before : list bytes) (fs : list (bytes * bool * htype)) (ds : list slot) : option (list slot) :=
                     match fs, ds with
                     | (name, exported, ft) :: fs', d :: ds' =>
                         match chain (fun d x =>
                                  match meth ft, pure ft with
                                  | true, _ => unless (ro || negb exported) d
                                  | false, Some f => f (ro || negb exported) d x
                                  | false, None => hconv ic ft (ro || negb exported) d x
                                  end) d (sent E ic before name (entries v)),
                               go (name :: before) fs' ds' with
                         | Some d1, Some ds1 => Some (d1 :: ds1)
                         | _, _ => None
                         end
                     | _, _ => Some ds
                     end) [] fs ds with
            | Some ds' => Some (LStruct ds')
            | None => None
            end
        | _ => None
        end
      end
  end.

(** A registered function and a method that behave: they answer, and do nothing to memory but unescape raw
    strings. *)
Definition handles (h : handler) (f : bool -> slot -> value -> option slot) : Prop :=
  forall ro d s0 s p v d', f ro d v = Some d' -> rep (hp s0) p v -> settled E s0 s ->
    exists s', h ro d s p = Ok (d', s') /\ settled E s0 s'.
Definition polite (m : method) : Prop :=
  forall d s0 s p v, rep (hp s0) p v -> settled E s0 s -> exists s', m d s p = Ok s' /\ settled E s0 s'.
Definition well (M : htype -> option method) (tb : table) : Prop :=
  (forall t, match M t with Some m => meth t = true /\ polite m | None => meth t = false end) /\
  (forall t, match tb t, pure t with Some h, Some f => handles h f | None, None => True | _, _ => False end).
End Spec.

(** [tp] is the type of some field or element inside [t]. *)
Fixpoint inside (tp t : htype) {struct t} : bool :=
  match t with
  | HBase _ => false
  | HName _ t' => inside tp t'
  | HSlice et => teq et tp || inside tp et
  | HStruct fs => existsb (fun f => teq (snd f) tp || inside tp (snd f)) fs
  end.
