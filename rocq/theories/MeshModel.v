(** Model of the tables that [Mesh_C] (/repo/Dolfin_Module.py) and [MeshEntityArrays] (/repo/cpp/MeshEntityArrays.cpp) make
    of a DOLFIN mesh. *)
From Verif Require Export Base.

(** The connectivity that DOLFIN supplies: the facets of a cell in local order ([cell.entities(tdim-1)], [facets(cell)]) and
    the cells attached to a facet ([facet.entities(tdim)]). *)
Record topo := Topo {
  t_ncell : nat;
  t_facets : nat -> list nat;
  t_cells : nat -> list nat
}.
(** [Mesh_C.NO_CELL], Dolfin_Module.py line 35; [MeshEntityArrays::NO_CELL], MeshEntityArrays.cpp line 50. *)
Definition NO_CELL_INDEX : Z := -1.

(** The cells attached to facet [f] other than [c]: Dolfin_Module.py line 349. *)
Definition attached (t : topo) (c f : nat) : list nat := filter (fun ci => ci <> c) (t_cells t f).

(** The loop over the facets of a cell, Dolfin_Module.py lines 345-357; [row] is [neighbor_cells] ([None]: not yet written).
    Cell numbers are assumed to fit an int32. *)
Fixpoint neighbor_row (t : topo) (c : nat) (fi : Z) (facets : list nat) (row : list (option Z)) : res (list (option Z)) :=
  match facets with
  | [] => Ok row
  | f :: r =>
    let v := match attached t c f with b :: _ => Z.of_nat b | [] => NO_CELL_INDEX end in
    let! row1 := py_set row fi (Some v) in
    neighbor_row t c (fi + 1) r row1
  end.
(** [compute_cell_neighbors_dict()]: Dolfin_Module.py lines 281-364, the value for every cell in mesh order. *)
Fixpoint neighbor_rows (t : topo) (tdim : nat) (cells : list nat) : res (list (list (option Z))) :=
  match cells with
  | [] => Ok []
  | c :: r =>
    let! row := neighbor_row t c 0 (t_facets t c) (replicate (S tdim) None) in
    let! rows := neighbor_rows t tdim r in
    Ok (row :: rows)
  end.
Definition compute_cell_neighbors_dict (t : topo) (tdim : nat) : res (list (list (option Z))) :=
  neighbor_rows t tdim (seq 0 (t_ncell t)).

(** The loop over the facets of a cell, MeshEntityArrays.cpp lines 144-182.  The assertion of line 152 is taken to be
    compiled in; writing behind the row is undefined. *)
Fixpoint cpp_neighbor_row (t : topo) (c fi : nat) (facets : list nat) (row : list Z) : res (list Z) :=
  match facets with
  | [] => Ok row
  | f :: r =>
    let a := t_cells t f in
    if negb ((1 <=? length a)%nat && (length a <=? 2)%nat) then Raise AssertionError else
    let v := if (length a =? 2)%nat
             then (if (nth 0 a 0 =? c)%nat then Z.of_nat (nth 1 a 0%nat) else Z.of_nat (nth 0 a 0%nat))
             else NO_CELL_INDEX in
    if (fi <? length row)%nat then cpp_neighbor_row t c (S fi) r (<[fi := v]> row) else Raise UndefinedBehaviour
  end.
(** [compute_cell_neighbors_array()]: MeshEntityArrays.cpp lines 103-192; a new [boost::multi_array] is filled with zeros. *)
Fixpoint cpp_neighbor_rows (t : topo) (nf : nat) (cells : list nat) : res (list (list Z)) :=
  match cells with
  | [] => Ok []
  | c :: r =>
    let! row := cpp_neighbor_row t c 0 (t_facets t c) (replicate nf 0) in
    let! rows := cpp_neighbor_rows t nf r in
    Ok (row :: rows)
  end.
Definition compute_cell_neighbors_array (t : topo) (nf : nat) : res (list (list Z)) :=
  cpp_neighbor_rows t nf (seq 0 (t_ncell t)).
