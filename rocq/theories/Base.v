(** Common vocabulary of the models: exceptions as values and Python indexing. *)
From stdpp Require Export list numbers.
From Coq Require Export ZArith Lia Bool.
#[global] Open Scope Z_scope.

(** The three error messages of the tracking loop of a mover: too many crossings
    (Particle_Module.py lines 1632, 2010), the same facet twice (1689, 2043), no
    facet found (1790, 2085). *)
Inductive track_msg : Set := CrossCountMsg | SameFacetMsg | NoFacetMsg.

(** How a call can fail.  The first group are Python exceptions.  [SystemExit]
    is [sys.exit()] or the C++ [exit()].  [Uninitialised] is a read of a slot of
    [np.empty] (or of a fresh C++ array) that was never written.
    [UndefinedBehaviour] is C++ undefined behaviour.  [AliasMismatch] marks a
    read through an index that does not designate the object that the model
    assumed.  [OutOfFuel] is not a behaviour of the code: it marks an exhausted
    recursion bound of the model, and the theorems exclude it.
    [RuntimeErrorAt m] is the RuntimeError that a mover raises with message [m];
    [NameErrorAt m] is the NameError that the neutral mover raises while building
    that message, because [fncName] is not defined there (Particle_Module.py lines
    2010, 2043, 2085). *)
Inductive exn : Set :=
| RuntimeErrorAt (m : track_msg) | NameErrorAt (m : track_msg)
| IndexError | AssertionError | RuntimeError | ValueError | TypeError
| NameError | AttributeError | ZeroDivisionError | KeyError | SystemExit
| Uninitialised | UndefinedBehaviour | AliasMismatch | OutOfFuel.

(** Result of a call that may raise. *)
Inductive res (A : Type) : Type :=
| Ok (a : A)
| Raise (e : exn).
Arguments Ok {A} a.
Arguments Raise {A} e.

Notation "'let!' p ':=' e1 'in' e2" :=
  (match e1 with Ok p => e2 | Raise er => Raise er end)
  (at level 200, p pattern, e1 at level 100, e2 at level 200, right associativity).

(** Python (and numpy) indexing: position designated by index [i] in a sequence
    of length [n]; negative indices count from the end; [None] is IndexError. *)
Definition py_pos (n : nat) (i : Z) : option nat :=
  if (0 <=? i) && (i <? Z.of_nat n) then Some (Z.to_nat i)
  else if (- Z.of_nat n <=? i) && (i <? 0) then Some (Z.to_nat (i + Z.of_nat n))
  else None.

(** [l[i]] *)
Definition py_get {A} (l : list A) (i : Z) : res A :=
  match py_pos (length l) i with
  | Some k => match l !! k with Some x => Ok x | None => Raise IndexError end
  | None => Raise IndexError
  end.

(** [l[i] = x] *)
Definition py_set {A} (l : list A) (i : Z) (x : A) : res (list A) :=
  match py_pos (length l) i with
  | Some k => Ok (<[k:=x]> l)
  | None => Raise IndexError
  end.
