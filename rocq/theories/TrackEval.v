(** Evaluation of the tracking model on explicit data, for the examples. *)
From Verif Require Import Vec VecProofs TrackModel BcModel Geometry FindFacetProps TrackProofs Conforming.

Ltac zdec :=
  repeat match goal with
  | |- context [Z.ltb ?a ?b] => let v := eval vm_compute in (Z.ltb a b) in
      match v with true => idtac | false => idtac end; change (Z.ltb a b) with v
  | |- context [Z.leb ?a ?b] => let v := eval vm_compute in (Z.leb a b) in
      match v with true => idtac | false => idtac end; change (Z.leb a b) with v
  | |- context [Z.eqb ?a ?b] => let v := eval vm_compute in (Z.eqb a b) in
      match v with true => idtac | false => idtac end; change (Z.eqb a b) with v
  | |- context [Z.to_nat ?a] => let v := eval vm_compute in (Z.to_nat a) in
      match v with O => idtac | S _ => idtac end; change (Z.to_nat a) with v
  end.
Ltac reval :=
  repeat progress (unfold find_facet, facet_planes, facet_scan, facet_step, on_marker, absorb_bc,
    reflect_bc, reflect_from_surface, put_move, dt_after, is_traj, is_deleted, set_px, set_px0, set_pu,
    set_pbits, set_pcell, set_pcross, vdot, vsub, vadd, vscale, exact, line_bcs, line_inside, py_get, py_pos;
    cbn; zdec; cbn; rdec).
Ltac rsolve := repeat match goal with
  | |- @eq R _ _ => first [lra | field; lra]
  | |- @eq Z _ _ => reflexivity
  | |- _ => reflexivity
  | |- _ => progress f_equal
  end.
Ltac ieval := unfold iter; cbn [l_ci l_ml l_cnt l_t l_dt l_p l_c]; reval; rsolve.

