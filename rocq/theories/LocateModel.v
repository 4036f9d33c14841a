(** Model of the search for the cells of the particles: [compute_mesh_cell_indices] of [Particle_C] in
    /repo/Particle_Module.py, and the functions of [Mesh_C] (/repo/Dolfin_Module.py) that it calls. *)
From stdpp Require Import strings.
From Verif Require Export Vec SapModel TrackModel DiagModel SourceModel.

Section Locate.
(** The particle mesh, and the search tree of DOLFIN ([bbtree.compute_first_entity_collision], Dolfin_Module.py line 462), which is
    not part of the repository: it returns an unsigned 32-bit number. *)
Context (m : mesh) (first : vec -> Z) (junk : particle).

(** [Mesh_C.compute_cell_index(point)], Dolfin_Module.py lines 433-474.  The point is made of the first [gdim] fields of the
    particle record. *)
Definition compute_cell_index (x : vec) : res Z :=
  let c := first (take (gdim m) x) in
  if (c =? NO_CELL)%Z then Raise SystemExit else Ok c.

(** [Mesh_C.is_inside_cell(point, cell_index)], lines 560-593: [cell_dict] has the keys of [cells]. *)
Definition is_inside_cell (x : vec) (c : Z) : res bool :=
  match cells m c with
  | None => Raise KeyError
  | Some _ => Ok (inside m c (take (gdim m) x))
  end.

(** One particle of [compute_mesh_cell_indices], Particle_Module.py lines 835-843: [pseg] is a view of the current segment, so that
    the assignment changes the storage.  The attribute [cell_index] is an int32. *)
Definition locate_one (s : sap particle) (ip : Z) : res (sap particle) :=
  let a := arr s (out_sa s) in
  let! o := fetch a (cur a) ip in
  let p := seen junk o in
  let! c := compute_cell_index (px p) in
  let q := set_pcell p (int32 c) in
  let! a1 := store a (cur a) ip (Some q) in
  let! b := is_inside_cell (px q) (pcell q) in
  if b then Ok (set_arr s (out_sa s) a1) else Raise RuntimeError.
(** [for ip in range(npSeg)], line 834. *)
Fixpoint locate_segment (n : nat) (ip : Z) (s : sap particle) : res (sap particle) :=
  match n with
  | O => Ok s
  | S k => let! s1 := locate_one s ip in locate_segment k (ip + 1)%Z s1
  end.
(** The loop over the segments of a species, lines 830-847.  [fuel] bounds the recursion as in [for_out]. *)
Fixpoint locate_rest (fuel : nat) (s : sap particle) : res (sap particle) :=
  match fuel with
  | O => Raise OutOfFuel
  | S f =>
    let! (s1, (n, b)) := get_next_segment s false in
    match b with
    | None => Ok s1
    | Some _ => let! s2 := locate_segment (Z.to_nat n) 0 s1 in locate_rest f s2
    end
  end.
Definition locate_species (s : sap particle) : res (sap particle) :=
  let! (s1, (n, b)) := init_out_loop s in
  match b with
  | None => Ok s1
  | Some _ => let! s2 := locate_segment (Z.to_nat n) 0 s1 in locate_rest (Z.to_nat (nseg (arr s (out_sa s)) + 1)) s2
  end.
(** [for sn in self.species_names], line 826. *)
Fixpoint locate_all (names : list string) (saps : string -> sap particle) : res (string -> sap particle) :=
  match names with
  | [] => Ok saps
  | sn :: r => let! s1 := locate_species (saps sn) in locate_all r (set_key saps sn s1)
  end.
End Locate.

(** [compute_mesh_cell_indices()], lines 816-850: without a particle mesh there is only a warning. *)
Definition compute_mesh_cell_indices (om : option mesh) (first : vec -> Z) (junk : particle) (names : list string)
    (saps : string -> sap particle) : res (string -> sap particle) :=
  match om with
  | None => Ok saps
  | Some m => locate_all m first junk names saps
  end.
