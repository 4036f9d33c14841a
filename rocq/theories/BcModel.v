(** Model of the boundary-condition functions that the repository ships. *)
From Verif Require Export TrackModel.

Section Bc.
Context (fl : R -> R) {K : Type}.

(** Absorbing boundary: [p['bitflags'] = p['bitflags'] | DELETE_FLAG].
    UserParticles_1D.py lines 144-164 and 172-192, UserParticles_2D_e.py lines
    295-306 and 310-328, cpp/UPBFs_spherical_r.h lines 177-189.  The printing is not
    modelled. *)
Definition absorb_bc : bcfun (K:=K) := fun c p mf f n =>
  Ok (set_pbits p (Z.lor (pbits p) DELETE_FLAG), c).

(** A boundary function that does nothing: UserParticles_1D.py lines 197-207
    ([default_bc_at_xmax]). *)
Definition noop_bc : bcfun (K:=K) := fun c p mf f n => Ok (p, c).

(** The arithmetic of a reflection: the velocity and the end point lose twice their
    component along [n]; [out] is the part of the move beyond the surface.
    UserParticles_1D.py lines 276-290, UserParticles_2D_e.py lines 368-382.
    cpp/Pstruct.h lines 112-121, 236-247, 377-391 and 517-527 write out the same for 1, 2, 3
    and 1 coordinates ([2.0 * n_dot_dx * sn[i]] associates to the left). *)
Definition reflect_from_surface (n out : vec) (p : particle) : particle :=
  let nd := vdot fl n out in
  let nu := vdot fl n (pu p) in
  set_pu (set_px p (vsub fl (px p) (map (fun a => fl (fl (2 * nd) * a)) n)))
         (vsub fl (pu p) (map (fun a => fl (fl (2 * nu) * a)) n)).

(** Reflecting boundary: UserParticles_1D.py lines 236-298 ([default_bc_at_rmin]),
    UserParticles_2D_e.py lines 331-390.  The move vector is the shared scratch array
    [self.dx].  [np_m.dot(facet_normal, ...)] raises TypeError for None and ValueError
    when the lengths differ. *)
Definition reflect_bc : bcfun (K:=K) := fun c p mf f n =>
  match n with
  | None => Raise TypeError
  | Some nv =>
    if negb (length nv =? length (scr c))%nat || negb (length nv =? length (pu p))%nat
    then Raise ValueError
    else Ok (reflect_from_surface nv (vscale fl (fl (1 - f)) (scr c)) p, c)
  end.

End Bc.
