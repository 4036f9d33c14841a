(** Specification of the segmented array pair as a plain list of items with one
    loop cursor.  Nothing here mentions segments, offsets inside a segment or
    the pair of arrays; [L] is only the block size of the loops. *)
From Verif Require Export Base.

Section Spec.
Context {A : Type}.

(** The operations of a history.  [Pass g del] is one guarded mover pass: every
    item [x] becomes [g x], and it is removed if [del (g x)]. *)
Inductive op :=
| Push (x : A)
| Get (i : Z)
| SetAt (i : Z) (x : A)
| Count
| Segments
| Capacity
| LoopStart
| LoopNext
| Pass (g : A -> A) (del : A -> bool).

(** What a call returns.  An item is an [option]: on the concrete side [None] is
    a slot that was never written, in the specification [None] is an item about
    which nothing is promised. *)
Inductive obs :=
| ODone
| OPos (offset index : Z)
| OItem (x : option A)
| ONum (n : Z)
| OPair (a b : Z)
| OBlock (n : Z) (b : option (list (option A))).

(** The abstract state: the items, whether the last pass removed every item, the
    cursor, and the numbers of blocks owned by the two arrays. *)
Record astate := AState {
  a_items : list A;
  a_dead : bool;
  a_cursor : Z;
  a_nin : Z;
  a_nout : Z
}.

Definition a_init : astate := AState [] false 0 1 1.

(** Position designated by a Python index when [n] slots exist. *)
Definition slot_of (n i : Z) : option Z :=
  let k := if i <? 0 then i + n else i in
  if (0 <=? k) && (k <? n) then Some k else None.

(** Block number [k] of a list. *)
Definition block (L : Z) (k : Z) (xs : list A) : list A :=
  take (Z.to_nat L) (drop (Z.to_nat (k * L)) xs).

(** Survivors of a pass. *)
Definition survivors (g : A -> A) (del : A -> bool) (xs : list A) : list A :=
  List.filter (fun y => negb (del y)) (map g xs).

(** When [push_back] is refused. *)
Definition push_refused (L : Z) (a : astate) : bool :=
  let n := Z.of_nat (length (a_items a)) in
  a_dead a || ((0 <? n) && (n mod L =? 0) && negb (a_cursor a + 1 =? n / L)).

Definition a_step (L : Z) (a : astate) (o : op) : res (astate * obs) :=
  let '(AState xs dead cu nin nout) := a in
  let n := Z.of_nat (length xs) in
  match o with
  | Push x =>
    if push_refused L a then Raise AssertionError
    else if (0 <? n) && (n mod L =? 0)
         then Ok (AState (xs ++ [x]) false (n / L) nin (Z.max nout (n / L + 1)), OPos 0 n)
         else Ok (AState (xs ++ [x]) false cu nin nout, OPos (n mod L) n)
  | Get i =>
    match slot_of (nout * L) i with
    | None => Raise IndexError
    | Some k => Ok (a, OItem (xs !! Z.to_nat k))
    end
  | SetAt i x =>
    match slot_of (nout * L) i with
    | None => Raise IndexError
    | Some k => Ok (AState (<[Z.to_nat k := x]> xs) dead cu nin nout, ODone)
    end
  | Count => Ok (a, ONum n)
  | Segments => Ok (a, OPair nin nout)
  | Capacity => Ok (a, OPair (nin * L) (nout * L))
  | LoopStart =>
    Ok (AState xs dead 0 nin nout,
        if dead then OBlock L (Some (replicate (Z.to_nat L) None))
        else if n =? 0 then OBlock 0 None
        else OBlock (Z.min L n) (Some (Some <$> block L 0 xs)))
  | LoopNext =>
    Ok (AState xs dead (cu + 1) nin nout,
        if (cu + 1) * L <? n
        then OBlock (Z.min L (n - (cu + 1) * L)) (Some (Some <$> block L (cu + 1) xs))
        else OBlock 0 None)
  | Pass g del =>
    if n =? 0 then Ok (a, ODone)
    else
      let ys := survivors g del xs in
      let cu' := Z.of_nat (length (survivors g del (removelast xs))) / L in
      Ok (AState ys (match ys with [] => true | _ => false end) cu' nout (Z.max nin (cu' + 1)), ODone)
  end.

(** Agreement of a returned value with the promised one. *)
Definition item_ok (want got : option A) : Prop :=
  match want with Some x => got = Some x | None => True end.
Definition obs_ok (want got : obs) : Prop :=
  match want, got with
  | ODone, ODone => True
  | OPos a b, OPos c d => a = c /\ b = d
  | OItem x, OItem y => item_ok x y
  | ONum n, ONum m => n = m
  | OPair a b, OPair c d => a = c /\ b = d
  | OBlock n None, OBlock m None => n = m
  | OBlock n (Some v), OBlock m (Some w) => n = m /\ Forall2 item_ok v w
  | _, _ => False
  end.

End Spec.
Arguments op A : clear implicits.
Arguments obs A : clear implicits.
Arguments astate A : clear implicits.

(** Running a history.  The result is the list of returned values and, if a call
    failed, the exception that ended the history. *)
Section Run.
Context {A S : Type} (step : S -> op A -> res (S * obs A)).
Fixpoint run (s : S) (h : list (op A)) : list (obs A) * option exn * S :=
  match h with
  | [] => ([], None, s)
  | o :: h' =>
    match step s o with
    | Raise e => ([], Some e, s)
    | Ok (s1, r) => let '(rs, e, s2) := run s1 h' in (r :: rs, e, s2)
    end
  end.
End Run.
