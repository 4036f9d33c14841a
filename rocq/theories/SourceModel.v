(** Model of particle creation: [create_from_list], [create_maxwellian_particles], [add_more_particles] and
    [initialize_particles] of [Particle_C] in /repo/Particle_Module.py, and of the cell sets of
    /repo/Dolfin_Module.py that they use. *)
From stdpp Require Import strings.
From Verif Require Export Vec SapModel TrackModel TrajModel DiagModel.

(** One cell of a [CellSet_C]: the elements at one position of [cell_index], [volume], [midpoint], [radius] and the
    test [in_cell(point, icell)] (Dolfin_Module.py lines 1821-1839, 1845-1862).  The test is DOLFIN's [cell.contains],
    so it is a parameter. *)
Record srccell := SrcCell {
  c_index : Z;
  c_vol : R;
  c_mid : vec;
  c_rad : R;
  c_in : vec -> bool
}.
(** A [CellSet_C]: [gdim] and the cells. *)
Record region := Region { r_gdim : nat; r_cells : list srccell }.

(** The parameter dictionary of a source, Particle_Module.py lines 2945-2950, and [timestep_interval], line 712.
    [thermal_speed] only shapes the random numbers and [velocity_coordinate_system] is not used. *)
Record params := Params {
  s_species : string;
  s_density : R;
  s_drift : vec;
  s_interval : Z;
  s_percell : Z
}.

(** A Python integer stored in an int32 attribute ([bitflags], [cell_index], [unique_ID], [crossings], lines 259-269):
    modelled as wrapping, as numpy before version 2 does. *)
Definition int32 (z : Z) : Z := ((z + 2 ^ 31) mod 2 ^ 32 - 2 ^ 31)%Z.

(** The state that particle creation changes: the storage ([sap_dict]), the class variable [UNIQUE_ID_COUNTER] (line
    150), how many random vectors have been drawn, and [traj_T]. *)
Record srcst := SrcSt {
  ss_saps : string -> sap particle;
  ss_uid : Z;
  ss_rng : nat;
  ss_traj : option traj
}.

Section Source.
Context (fl : R -> R).
(** [names] are the species; [spherical] is [coordinate_system == 'spherical_r']; [pdim] is [particle_dimension];
    [rnd k] is the result of the [k]-th call to [np_m.random] (of the length that the call asks for); [fuel] bounds the
    number of tries of the loop of line 2995, and exhaustion stands for a loop that does not end. *)
Context (names : list string) (spherical : bool) (pdim : nat) (pi4 : R) (rnd : nat -> vec) (fuel : nat).

(** [weightMult], lines 2969-2971; [pi4] is [4.0*np_m.pi]. *)
Definition weight_mult (q : params) : res R :=
  if (s_percell q =? 0)%Z then Raise ZeroDivisionError else
  let w := fl (s_density q / IZR (s_percell q)) in
  Ok (if spherical then fl (w / pi4) else w).

(** The scratch array [pCoord] with the first [gdim] coordinates set; the others were zeroed in line 2964.  More mesh
    coordinates than particle coordinates are an IndexError. *)
Definition coords (g : nat) (x : vec) : res vec :=
  if (pdim <? g)%nat then Raise IndexError else Ok (take g x ++ replicate (pdim - g) 0).

(** Lines 2994-3002: a random point of the ball around the midpoint, drawn until it is in the cell. *)
Fixpoint random_point (n : nat) (g : nat) (c : srccell) (k : nat) : res (vec * nat) :=
  match n with
  | O => Raise OutOfFuel
  | S n' =>
    let! x := coords g (zip_with (fun m r => fl (m + fl (r * c_rad c))) (c_mid c) (rnd k)) in
    if c_in c x then Ok (x, S k) else random_point n' g c (S k)
  end.

(** The fields of a new trajectory's first point, lines 3051-3073. *)
Definition first_E (dE : nat) (negE : option (particle -> vec)) (p : particle) : vec :=
  match negE with Some g => map Ropp (g p) | None => replicate dE 0 end.
Definition first_Eext (dE : nat) (Eext : option (particle -> vec)) (p : particle) : vec :=
  match Eext with Some g => g p | None => replicate dE 0 end.

Context (dE : nat) (negE Eext : option (particle -> vec)).

(** One pass of the loop over [ip], lines 2985-3080.  [np_m.random.normal(...) + driftVelocity] with different lengths
    is a ValueError.  The particle is stored and may get a trajectory ([add_particle]). *)
Definition new_particle (sn : string) (step : Z) (time : R) (g : nat) (drift : vec) (c : srccell) (w : R) (ip : nat)
    (st : srcst) : res srcst :=
  let! (x, k) := (match ip with
                  | O => let! x := coords g (c_mid c) in Ok (x, ss_rng st)
                  | S _ => random_point fuel g c (ss_rng st)
                  end) in
  if negb (length drift =? pdim)%nat then Raise ValueError else
  let u := vadd fl (rnd k) drift in
  let bits := if (ss_uid st =? 500)%Z then TRAJECTORY_FLAG else 0%Z in
  let p := Particle x x u w bits (int32 (c_index c)) (int32 (ss_uid st)) 0 in
  let! (s1, T1) := add_particle true sn step time (first_E dE negE p) (first_Eext dE Eext p)
                     (ss_saps st sn) (ss_traj st) p in
  Ok (SrcSt (set_key (ss_saps st) sn s1) (ss_uid st + 1) (S k) T1).

(** [for ip in range(numberPerCell)], line 2985. *)
Fixpoint new_particles (sn : string) (step : Z) (time : R) (g : nat) (drift : vec) (c : srccell) (w : R)
    (ips : list nat) (st : srcst) : res srcst :=
  match ips with
  | [] => Ok st
  | ip :: r => let! st1 := new_particle sn step time g drift c w ip st in new_particles sn step time g drift c w r st1
  end.
(** [for icell in range(nCell)], lines 2974-2976. *)
Fixpoint new_cells (sn : string) (step : Z) (time : R) (g : nat) (drift : vec) (mult : R) (n : nat)
    (cs : list srccell) (st : srcst) : res srcst :=
  match cs with
  | [] => Ok st
  | c :: r =>
    let! st1 := new_particles sn step time g drift c (fl (c_vol c * mult)) (seq 0 n) st in
    new_cells sn step time g drift mult n r st1
  end.

(** [create_maxwellian_particles(step, time, domain, paramDict, neg_E_field, external_E_field)]: lines 2897-3082.  An
    unknown species is a KeyError (line 2953). *)
Definition create_maxwellian (step : Z) (time : R) (dom : region) (q : params) (st : srcst) : res srcst :=
  if negb (existsb (String.eqb (s_species q)) names) then Raise KeyError else
  let! mult := weight_mult q in
  new_cells (s_species q) step time (r_gdim dom) (s_drift q) mult (Z.to_nat (s_percell q)) (r_cells dom) st.

(** [create_from_list(species_name)], lines 597-643: the particles of the user's list one after the other. *)
Fixpoint create_from_list (sn : string) (ps : list particle) (st : srcst) : res srcst :=
  match ps with
  | [] => Ok st
  | p :: r =>
    let! (s1, T1) := add_particle false sn 0 0 [] [] (ss_saps st sn) (ss_traj st) p in
    create_from_list sn r (SrcSt (set_key (ss_saps st) sn s1) (ss_uid st) (ss_rng st) T1)
  end.
End Source.

(** [add_more_particles(ctrl, ...)], lines 693-719: the sources in the order of the dictionary; a source is its
    [timestep_interval] and its creation function applied to its region and parameters.  An interval of 0 is a
    ZeroDivisionError. *)
Fixpoint add_more_particles {St} (srcs : list (Z * (Z -> R -> St -> res St))) (count : Z) (time : R) (st : St) : res St :=
  match srcs with
  | [] => Ok st
  | (k, f) :: r =>
    if (k =? 0)%Z then Raise ZeroDivisionError else
    let! st1 := (if (count mod k =? 0)%Z then f count time st else Ok st) in
    add_more_particles r count time st1
  end.

(** The time loop of examples/sphere1D/sphere1D.py, lines 1275-1367, as far as sources are concerned: [before] is what
    the step does before line 1294, [after] what it does after it.  [time k] is the time of step [k]. *)
Fixpoint source_loop {St} (srcs : list (Z * (Z -> R -> St -> res St))) (before after : Z -> St -> res St) (time : Z -> R)
    (n : nat) (count : Z) (st : St) : res St :=
  match n with
  | O => Ok st
  | S m =>
    let count1 := (count + 1)%Z in
    let! st1 := before count1 st in
    let! st2 := add_more_particles srcs count1 (time count1) st1 in
    let! st3 := after count1 st2 in
    source_loop srcs before after time m count1 st3
  end.

(** ** Initial particles *)

(** A value passed as an argument, as far as the calls below distinguish them. *)
Inductive arg := ANum (x : R) | ARegion (r : region) | AParams (q : params) | ANone | AField (f : particle -> vec).

Section Init.
Context (fl : R -> R) (names : list string) (spherical : bool) (pdim : nat) (pi4 : R) (rnd : nat -> vec) (fuel : nat).
Context (dE : nat).

(** The call [create_maxwellian_particles( *args)]: lines 2897, 2940-2950.  [step], [time], [domain] and [paramDict] are
    required; [domain.cell_list] of an object without that attribute is an AttributeError, and indexing something that
    is not the parameter dictionary a TypeError.  Whatever is passed for [step] and [time] is only recorded; a step that is
    not a number is not represented here. *)
Definition call_maxwellian (args : list arg) (st : srcst) : res srcst :=
  match args with
  | step :: time :: domain :: paramDict :: rest =>
    match domain with
    | ARegion dom =>
      match paramDict with
      | AParams q =>
        let field a := match a with Some (AField f) => Some f | _ => None end in
        let num a := match a with ANum x => x | _ => 0 end in
        create_maxwellian fl names spherical pdim pi4 rnd fuel dE (field (rest !! 0%nat)) (field (rest !! 1%nat))
          (py_int (num step)) (num time) dom q st
      | _ => Raise TypeError
      end
    | _ => Raise AttributeError
    end
  | _ => Raise TypeError
  end.

(** One entry of [initial_particles_dict], lines 466-483. *)
Inductive initial :=
| Listed (sn : string) (ps : list particle)
| OverRegion (q : params) (r : region)
| OtherKind.

(** [initialize_particles(print_flags, neg_E_field)], lines 450-508, with [create_maxwellian_particles] as the creation
    function of 'function_over_region' entries: line 487 calls [ipFunc(time, ipRegion, ipParams, neg_E_field)].  The error
    message for another type uses an unbound name (line 489): NameError. *)
Fixpoint initialize_particles (negE : arg) (ini : list initial) (st : srcst) : res srcst :=
  match ini with
  | [] => Ok st
  | Listed sn ps :: r =>
    if negb (existsb (String.eqb sn) names) then Raise KeyError else
    let! st1 := create_from_list sn ps st in initialize_particles negE r st1
  | OverRegion q reg :: r =>
    let! st1 := call_maxwellian [ANum 0; ARegion reg; AParams q; negE] st in initialize_particles negE r st1
  | OtherKind :: _ => Raise NameError
  end.
End Init.
