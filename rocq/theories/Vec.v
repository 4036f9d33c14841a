(** Real vectors as lists of coordinates, with the arithmetic of the code.

    [fl] is the rounding applied to the result of every operation.  Exact
    arithmetic is [fl := exact]; IEEE double precision without overflow is Flocq's
    rounding (file Rounding.v).  So one model serves for both. *)
From Coq Require Export Reals Lra Psatz ZifyBool ZifyNat.
From Verif Require Export Base.
#[global] Open Scope R_scope.

Notation vec := (list R).

(** Exact arithmetic: results are not rounded. *)
Definition exact (x : R) : R := x.

(** Comparisons of floating-point numbers as booleans ([<] and [==] in Python and
    C++; NaN is not modelled). *)
Definition Rltb (x y : R) : bool := if Rlt_dec x y then true else false.
Definition Reqb (x y : R) : bool := if Req_EM_T x y then true else false.

Section Ops.
Context (fl : R -> R).

(** [a + b], [a - b] and [s * a] on numpy vectors: Dolfin_Module.py lines 703, 783
    ([np_m.subtract]), Particle_Module.py lines 1598, 1651, 1681. *)
Definition vadd (a b : vec) : vec := zip_with (fun x y => fl (x + y)) a b.
Definition vsub (a b : vec) : vec := zip_with (fun x y => fl (x - y)) a b.
Definition vscale (s : R) (a : vec) : vec := map (fun x => fl (s * x)) a.

(** [np_m.dot(a, b)] for short vectors (Dolfin_Module.py lines 678, 699, 705, ...):
    the products are summed from left to right.  (The C++ code writes the same sum
    out, cpp/dolfin_functions.cpp lines 75-470.) *)
Definition vdot (a b : vec) : R :=
  fold_left (fun s xy => fl (s + fl (fst xy * snd xy))) (zip a b) 0.

End Ops.
