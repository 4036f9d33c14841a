(** Model of the solution of Poisson's equation: [PoissonSolve_C], /repo/Dolfin_Module.py lines 1406-1745, and its child for one radial
    coordinate, [UserPoissonSolve1DS_C], /repo/UserMesh_y_Fields_Spherical1D_Module.py lines 389-485, with the objects that are shared
    between a [Field_C] and the solver. *)
From stdpp Require Import strings.
From Verif Require Export Vec DensityModel MeshFieldModel.

(** A matrix of DOLFIN ([self.A], Dolfin_Module.py line 1555), as a function of the row and the column. *)
Definition matrix : Type := nat -> nat -> R.

(** A [Field_C] has a [function] and [function_values], which is [function.vector()] when the field is made (Dolfin_Module.py lines
    926-930).  [compute_negE] replaces [function] by a new object (line 1737): [frep] has the coefficients of that object, if any. *)
Record field := FieldObj { fvals : list R; frep : option (list R) }.
(** The coefficients of [F.function], those that [self.function(p)] evaluates (lines 1141, 1190). *)
Definition fcoeffs (F : field) : list R := default (fvals F) (frep F).
(** A function of [Field_C] that works on [function_values] ([set_values], [multiply_values], [multiply_add], ..., lines 963-1101). *)
Definition on_values (g : list R -> res (list R)) (F : field) : res field := let! v := g (fvals F) in Ok (FieldObj v (frep F)).

(** The argument of [assemble_source_expression], by its type: lines 1602-1612. *)
Inductive source := SNone | SString (e : string) | SNumber (x : R) | SOther.

(** A [DirichletBC]: the degrees of freedom on the marked facets, and the constant (Spherical1D module lines 443-447). *)
Definition dirichlet : Type := list nat * R.
(** [bc.apply(b)]: Dolfin_Module.py lines 1625-1626, 1689-1690. *)
Definition bc_vector (bc : dirichlet) (b : list R) : list R := scatter b (fst bc) (map (fun _ => snd bc) (fst bc)).
(** [bc.apply(A)]: lines 1556-1557, 1677-1678.  The rows become those of the identity. *)
Definition bc_matrix (bc : dirichlet) (A : matrix) : matrix :=
  fun i j => if bool_decide (i ∈ fst bc) then (if (i =? j)%nat then 1 else 0) else A i j.
(** [for bc in self.bcs: bc.apply(...)]: the same lines. *)
Definition bcs_vector (bcs : list dirichlet) (b : list R) : list R := fold_left (fun x bc => bc_vector bc x) bcs b.
Definition bcs_matrix (bcs : list dirichlet) (A : matrix) : matrix := fold_left (fun M bc => bc_matrix bc M) bcs A.

(** What the solver object holds: [self.A], [self.b], the values of [self.u] (the same vector as [phi_F.function_values], lines 1486 and
    1693), and [self.neg_electric_field]. *)
Record solver := Solver { sA : matrix; sb : list R; su : list R; snegE : option field }.

Section Solve.
(** [fl] rounds; [form ()] is [df_m.assemble(self.a)] and [load] is [df_m.assemble(L)] for a constant and for a string (None: DOLFIN refuses
    the string); [lu] is [df_m.solve]; [project] is [df_m.project(df_m.grad(u), function_space)]; [constant] is
    [pde_has_constant_coeffs]; [form] is taken to be the same at all times. *)
Context (fl : R -> R) (form : matrix) (load : R + string -> option (list R)) (bcs : list dirichlet).
Context (lu : matrix -> list R -> list R) (project : list R -> list R) (constant : bool).

(** [self.b[:] = v]: lines 1623, 1686.  DOLFIN raises RuntimeError if the lengths are different. *)
Definition fill (b v : list R) : res (list R) := if (length v =? length b)%nat then Ok v else Raise RuntimeError.

(** [assemble_matrix()]: lines 1548-1560. *)
Definition assemble_matrix (s : solver) : solver := Solver (bcs_matrix bcs form) (sb s) (su s) (snegE s).

(** [assemble_source_expression(source_density)]: lines 1563-1629. *)
Definition assemble_source (d : source) (s : solver) : res solver :=
  let! e := match d with SNone => Ok (inl 0) | SString t => Ok (inr t) | SNumber x => Ok (inl x) | SOther => Raise SystemExit end in
  let! v := match load e with Some v => Ok v | None => Raise RuntimeError end in
  let! b := fill (sb s) v in
  Ok (Solver (sA s) (bcs_vector bcs b) (su s) (snegE s)).

(** [compute_negE()]: lines 1725-1745, without the plots. *)
Definition compute_negE (s : solver) : solver :=
  Solver (sA s) (sb s) (su s) (match snegE s with Some F => Some (FieldObj (fvals F) (Some (project (su s)))) | None => None end).

(** [solve_for_phi(assembled_charge, assembled_charge_factor)]: lines 1632-1722, without the plots.  The charge is the field that the caller
    handed over; it is returned as the call leaves it. *)
Definition solve_for_phi (s : solver) (charge : option field) (factor : option R) : res (solver * option field) :=
  let A := if constant then sA s else bcs_matrix bcs form in
  let charge1 := match charge, factor with
                 | Some q, Some f => Some (FieldObj (map (fun x => fl (x * f)) (fvals q)) (frep q))
                 | _, _ => charge end in
  let! b := match charge1 with Some q => let! v := fill (sb s) (fvals q) in Ok (bcs_vector bcs v) | None => Ok (sb s) end in
  let s1 := Solver A b (lu A b) (snegE s) in
  Ok (match snegE s with Some _ => compute_negE s1 | None => s1 end, charge1).

(** The end of the constructor of a child class (Spherical1D module lines 470-473): the matrix, then a source of zero.  [PoissonSolve_C.__init__]
    (Dolfin_Module.py lines 1463-1500) makes [b] with the length of the potential. *)
Definition new_solver (phi : list R) (negE : option field) : res solver :=
  assemble_source (SNumber 0) (assemble_matrix (Solver (fun _ _ => 0) (replicate (length phi) 0) phi negE)).

(** What a program can do with the solver and one charge field: set a source, change the charge, change [function_values] of the electric
    field, solve without and with the charge (as in /repo/examples/sphere1D/sphere1D.py lines 1161, 1209-1232 and 1301-1345). *)
Inductive call := KSource (d : source) | KCharge (g : list R -> res (list R)) | KField (g : list R -> res (list R)) | KSolve | KSolveCharge (factor : option R).
Definition do_call (k : call) (w : solver * field) : res (solver * field) :=
  let '(s, q) := w in
  match k with
  | KSource d => let! s1 := assemble_source d s in Ok (s1, q)
  | KCharge g => let! q1 := on_values g q in Ok (s, q1)
  | KField g => match snegE s with
                | None => Raise AttributeError
                | Some F => let! F1 := on_values g F in Ok (Solver (sA s) (sb s) (su s) (Some F1), q)
                end
  | KSolve => let! r := solve_for_phi s None None in Ok (fst r, q)
  | KSolveCharge f => let! r := solve_for_phi s (Some q) f in Ok (fst r, default q (snd r))
  end.
Fixpoint do_calls (ks : list call) (w : solver * field) : res (solver * field) :=
  match ks with [] => Ok w | k :: r => let! w1 := do_call k w in do_calls r w1 end.
End Solve.

(** ** One radial coordinate *)

Section Radial.
(** [X] are the radii of the vertices, [dn] the degree of freedom of a vertex for linear elements, [de] the degree of freedom of a cell for the
    electric field (constant on every cell), [eps] is [epsilon_0]. *)
Context (X : list R) (dn de : nat -> nat) (eps : R).
Let l (c : nat) : R := nth c X 0.
Let r (c : nat) : R := nth (S c) X 0.

(** The gradient in cell [c] of the basis function of degree of freedom [i] ([nabla_grad(self.w)], Spherical1D module line 462). *)
Definition slope (c i : nat) : R := ((if (dn (S c) =? i)%nat then 1 else 0) - (if (dn c =? i)%nat then 1 else 0)) / (r c - l c).
(** The integral of [r[0]**2] over cell [c] (line 462). *)
Definition shell (c : nat) : R := (r c ^ 3 - l c ^ 3) / 3.
(** [df_m.assemble(self.a)] with [a = epsilon*inner(nabla_grad(w), nabla_grad(v))*r[0]**2*dx]: Spherical1D module line 462.  The integrals are
    taken to be exact (the quadrature is exact for polynomials of this degree). *)
Definition radial_form : matrix := fun i j => Rsum (map (fun c => eps * (slope c i * slope c j * shell c)) (seq 0 (length X - 1))).
(** [df_m.assemble(source_expression*self.v*df_m.dx)] for a constant: Dolfin_Module.py lines 1621-1623; there is no factor [r**2].  A string is
    refused ([Expression] needs a degree, which line 1605 does not give). *)
Definition radial_load (e : R + string) : option (list R) :=
  match e with
  | inl d => Some (map (fun i => Rsum (map (fun c => d * ((if (dn c =? i)%nat then (r c - l c) / 2 else 0) + (if (dn (S c) =? i)%nat then (r c - l c) / 2 else 0)))
                                            (seq 0 (length X - 1)))) (seq 0 (length X)))
  | inr _ => None
  end.
(** The boundary conditions: Spherical1D module lines 429-447; None is ['unset'].  The markers are taken to be on the first and the last vertex. *)
Definition radial_bcs (phi_rmin : option R) (phi_rmax : R) : list dirichlet :=
  match phi_rmin with
  | None => [([dn (length X - 1)], phi_rmax)]
  | Some v => [([dn 0], v); ([dn (length X - 1)], phi_rmax)]
  end.
(** [df_m.project(df_m.grad(u), V)] for a space of functions that are constant on every cell: the gradient itself
    (Dolfin_Module.py lines 1731-1737). *)
Definition radial_project (u : list R) : list R :=
  fold_left (fun a c => <[de c := (nth (dn (S c)) u 0 - nth (dn c) u 0) / (r c - l c)]> a) (seq 0 (length X - 1)) (replicate (length X - 1) 0).
End Radial.
