(** Specification of cells as point sets, independent of the search code. *)
From Verif Require Import Vec VecProofs TrackModel.

(** Vertex [j] lies on facet [i]: in 2D and 3D facet [i] is opposite to vertex [i];
    in 1D facet [i] is vertex [i] (DOLFIN's numbering, relied on by
    Dolfin_Module.py lines 694-697, 774-777, 846-849). *)
Definition on_facet (d i j : nat) : Prop := if (d =? 1)%nat then j = i else j <> i.

(** The closed cell: the points that are not strictly beyond any facet. *)
Definition InCell (d : nat) (c : cellrec) (x : vec) : Prop :=
  forall i n j v, normals c !! i = Some n -> verts c !! j = Some v ->
    on_facet d i j -> dot n x <= dot n v.

(** A simplex with outward normals: [d+1] vertices and normals, every facet flat, and
    the vertices that are not on a facet strictly on its inner side. *)
Record Simplex (d : nat) (c : cellrec) : Prop := {
  sx_dim : (1 <= d <= 3)%nat;
  sx_nv : length (verts c) = S d;
  sx_nn : length (normals c) = S d;
  sx_lv : Forall (fun v => length v = d) (verts c);
  sx_ln : Forall (fun n => length n = d) (normals c);
  sx_flat : forall i n j v j' v', normals c !! i = Some n ->
    verts c !! j = Some v -> verts c !! j' = Some v' ->
    on_facet d i j -> on_facet d i j' -> dot n v = dot n v';
  sx_out : forall i n j v k w, normals c !! i = Some n ->
    verts c !! j = Some v -> verts c !! k = Some w ->
    on_facet d i j -> ~ on_facet d i k -> dot n w < dot n v
}.

(** The point at fraction [t] of the move [dx] from [x]. *)
Definition along (x dx : vec) (t : R) : vec := vadd exact x (vscale exact t dx).
