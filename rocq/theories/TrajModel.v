(** Model of the trajectory bookkeeping: [Trajectory_C] in /repo/RecordedData_Module.py
    and the functions of [Particle_C] in /repo/Particle_Module.py that use it; and of the
    two complete movers, with field selection, tracking and bookkeeping. *)
From Coq Require Export String.
From Verif Require Export MoverModel TrackModel.

(** [Trajectory_C.NO_PINDEX], RecordedData_Module.py line 325. *)
Definition NO_PINDEX : Z := (-1)%Z.

(** One recorded point.  The code copies the components named in [charged_dict] or
    [neutral_dict] one by one (Particle_Module.py lines 2399-2421, 2506-2536, 2768-2779,
    2803-2809); the model records everything that can be named: step, time, position
    ([d_x], which is not always that of the record), the particle record, the two field
    vectors.  A dictionary with fewer names is a projection of this. *)
Record datum := Datum {
  d_step : Z;
  d_time : R;
  d_x : vec;
  d_p : particle;
  d_E : vec;
  d_Eext : vec
}.

(** One trajectory: the elements at one position of the four parallel lists
    [particle_index_list[sn]], [particle_unique_id_list[sn]], [trajectory_length[sn]] and
    [data_list[sn]], which [create_trajectory] extends together (RecordedData_Module.py
    lines 419-453).  [None] in [e_data] is a slot of [np.empty] that was never written. *)
Record entry := Entry {
  e_index : Z;
  e_uid : Z;
  e_len : Z;
  e_data : list (option datum)
}.

(** The parts of [Trajectory_C] that change or are read during a run:
    [npoints], [last_step] ([None] at first) and the lists of every species
    (RecordedData_Module.py lines 356-410). *)
Record traj := Traj {
  t_npoints : Z;
  t_last : option Z;
  t_sp : string -> list entry
}.

(** Assignment to the lists of one species. *)
Definition set_sp (T : traj) (sn : string) (es : list entry) : traj :=
  Traj (t_npoints T) (t_last T) (fun s => if String.eqb s sn then es else t_sp T s).

(** [l.index(x)] of a Python list: first position, or ValueError. *)
Fixpoint list_index (l : list Z) (x : Z) : res nat :=
  match l with
  | [] => Raise ValueError
  | y :: r => if (y =? x)%Z then Ok O else let! k := list_index r x in Ok (S k)
  end.

(** [create_trajectory(sn, pindex, dynamics_type, unique_id_int)]: RecordedData_Module.py
    lines 419-453 (for the two known dynamics types). *)
Definition create_trajectory (T : traj) (sn : string) (pindex uid : Z) : traj :=
  set_sp T sn (t_sp T sn ++ [Entry pindex uid 0 (replicate (Z.to_nat (t_npoints T)) None)]).

(** [data[comp][newpoint] = ...] for every component with [newpoint] the present length,
    and [trajectory_length += 1]: Particle_Module.py lines 2391-2423, 2499-2541,
    2761-2781, 2801-2811. *)
Definition write_point (e : entry) (d : datum) : res entry :=
  let! data := py_set (e_data e) (e_len e) (Some d) in
  Ok (Entry (e_index e) (e_uid e) (e_len e + 1) data).

Section Record.
Context (fl : R -> R).

(** [record_trajectory_datum(sn, ip_out, full_index, step, time, E, Eext, facet_crossing)]:
    Particle_Module.py lines 2430-2542; [p] is the record at [ip_out] of the current "out"
    segment.  [traj_T] is None: nothing is done (line 2493). *)
Definition record_datum (T : option traj) (sn : string) (p : particle) (fi step : Z) (time : R)
    (E Eext : vec) (crossing : bool) : res (option traj) :=
  match T with
  | None => Ok None
  | Some T =>
    let es := t_sp T sn in
    let! i := list_index (map e_index es) fi in
    match es !! i with
    | None => Raise IndexError
    | Some e =>
      if (t_npoints T - 1 <? e_len e)%Z then Ok (Some T) else
      let! e1 := write_point e (Datum step time (if crossing then px0 p else px p) p E Eext) in
      Ok (Some (set_sp T sn (<[i := e1]> es)))
    end
  end.

(** [update_trajectory_particleId(sn, ip_in, ip_out)]: lines 2292-2318. *)
Definition update_particleId (T : traj) (sn : string) (fi fo : Z) : res traj :=
  let es := t_sp T sn in
  let! i := list_index (map e_index es) fi in
  match es !! i with
  | None => Raise IndexError
  | Some e => Ok (set_sp T sn (<[i := Entry fo (e_uid e) (e_len e) (e_data e)]> es))
  end.

(** [remove_trajectory_particleId(sn, ip_in, ip_out, step, time, dt)]: lines 2321-2427; [q] is
    the record in the "out" segment; the fields are recorded as zeros ([zE]). *)
Definition remove_particleId (T : traj) (sn : string) (q : particle) (fi step : Z) (time dt : R)
    (zE : vec) : res traj :=
  let same := match t_last T with Some l => (step =? l)%Z | None => false end in
  let fstep := if same then (step + 1)%Z else step in
  let ftime := if same then fl (time + dt) else time in
  let es := t_sp T sn in
  let! i := list_index (map e_index es) fi in
  match es !! i with
  | None => Raise IndexError
  | Some e =>
    let! e1 :=
      (if (t_npoints T - 1 <? e_len e)%Z then Ok e
       else write_point e (Datum fstep ftime (px q) q zE zE)) in
    Ok (set_sp T sn (<[i := Entry NO_PINDEX (e_uid e1) (e_len e1) (e_data e1)]> es))
  end.

(** A new particle of species [sn] is stored and, if it is flagged, gets a trajectory:
    [create_from_list], lines 626-642 ([first] = false), and [create_maxwellian_particles], lines
    3034-3076 ([first] = true: the initial point is recorded).  The recorded particle is read from the
    current "out" segment (line 2463) at the offset that [push_back] returned. *)
Definition add_particle (first : bool) (sn : string) (step : Z) (time : R) (E Eext : vec)
    (s : sap particle) (T : option traj) (p : particle) : res (sap particle * option traj) :=
  let! (s1, (seg, full)) := push_back s p in
  if is_traj p then
    match T with
    | None => Ok (s1, None)
    | Some T =>
      let T1 := create_trajectory T sn full (puid p) in
      if first then
        let! o := current_out_item s1 seg in
        match o with
        | None => Raise Uninitialised
        | Some q => let! T2 := record_datum (Some T1) sn q full step time E Eext false in Ok (s1, T2)
        end
      else Ok (s1, Some T1)
    end
  else Ok (s1, T).

(** Loop over the trajectories of one charged species in [record_trajectory_data]: lines
    2717-2781.  [get] is the particle at a full "out" index (lines 2729-2730), [mk] makes the point.
    The flag tells that the function returned early, lines 2763-2766.  The entries are
    independent of each other, so the loop by position is a recursion on the list. *)
Fixpoint rec_charged (np : Z) (get : Z -> res particle) (mk : particle -> datum) (es : list entry)
    : res (list entry * bool) :=
  match es with
  | [] => Ok ([], false)
  | e :: r =>
    if (e_index e =? NO_PINDEX)%Z then
      let! (r1, b) := rec_charged np get mk r in Ok (e :: r1, b)
    else
      let! p := get (e_index e) in
      if (np - 1 <? e_len e)%Z then Ok (e :: r, true) else
      let! e1 := write_point e (mk p) in
      let! (r1, b) := rec_charged np get mk r in Ok (e1 :: r1, b)
  end.

(** The same for one neutral species, lines 2784-2811: no test of the length. *)
Fixpoint rec_neutral (get : Z -> res particle) (mk : particle -> datum) (es : list entry)
    : res (list entry) :=
  match es with
  | [] => Ok []
  | e :: r =>
    if (e_index e =? NO_PINDEX)%Z then
      let! r1 := rec_neutral get mk r in Ok (e :: r1)
    else
      let! p := get (e_index e) in
      let! e1 := write_point e (mk p) in
      let! r1 := rec_neutral get mk r in Ok (e1 :: r1)
  end.

(** Loops over species, lines 2714 and 2784. *)
Fixpoint rec_charged_all (get : string -> Z -> res particle) (mk : particle -> datum)
    (sps : list string) (T : traj) : res (traj * bool) :=
  match sps with
  | [] => Ok (T, false)
  | sn :: r =>
    let! (es, b) := rec_charged (t_npoints T) (get sn) mk (t_sp T sn) in
    let T1 := set_sp T sn es in
    if b then Ok (T1, true) else rec_charged_all get mk r T1
  end.
Fixpoint rec_neutral_all (get : string -> Z -> res particle) (mk : particle -> datum)
    (sps : list string) (T : traj) : res traj :=
  match sps with
  | [] => Ok T
  | sn :: r =>
    let! es := rec_neutral (get sn) mk (t_sp T sn) in
    rec_neutral_all get mk r (set_sp T sn es)
  end.

(** [record_trajectory_data(step, time, neg_E_field, external_E_field)]: lines 2679-2818.  The
    fields at a particle's position are functions (or None); [dE] is the number of field components. *)
Definition record_trajectory_data (T : traj) (charged neutral : list string)
    (get : string -> Z -> res particle) (dE : nat) (negE Eext : option (particle -> vec))
    (step : Z) (time : R) : res traj :=
  if (match t_last T with Some l => (step =? l)%Z | None => false end) then Ok T else
  let field (F : option (particle -> vec)) p :=
    match F with Some g => g p | None => replicate dE 0 end in
  let mk p := Datum step time (px p) p
    (map (fun x => fl (x * -1)) (field negE p)) (field Eext p) in
  let mkn p := Datum step time (px p) p [] [] in
  let! (T1, early) := rec_charged_all get mk charged T in
  if early then Ok T1 else
  let! T2 := rec_neutral_all get mkn neutral T1 in
  Ok (Traj (t_npoints T2) (Some step) (t_sp T2)).

(** ** The complete movers *)

(** The electric field used for one particle, lines 1493-1521.  [negE] and [Eext] give the
    interpolated fields at the particle (None when the argument is None); the flags are
    [ctrl.apply_solved_electric_field] and [ctrl.apply_random_external_electric_field] at this
    species (None when the attribute is None).  The code interpolates for a whole segment at
    once, before its particles are moved and from the "in" array, which is the same as one
    particle at a time (theorem C59).  [Eseg.dtype] of None is an AttributeError. *)
Definition select_E (dE : nat) (negE Eext : option (particle -> vec)) (solved ext : option bool)
    (p : particle) : res (option vec) :=
  let Es :=
    match negE with
    | Some g => match solved with
                | Some false => None
                | _ => Some (map (fun x => fl (x * -1)) (g p))
                end
    | None => Some (replicate dE 0)
    end in
  match Eext, ext with
  | Some _, Some false => Ok Es
  | Some h, _ => match Es with
                 | Some e => Ok (Some (vadd fl e (h p)))
                 | None => Raise AttributeError
                 end
  | None, _ => Ok Es
  end.

(** Recording of a boundary crossing in the charged mover, lines 1704-1768.  [Eseg[ipIn]] of
    None is a TypeError; [Eext_seg] is not bound when the external field is given but
    not applied, which is an UnboundLocalError. *)
Definition rec_crossing_charged (sn : string) (step : Z) (dE : nat)
    (Es : option vec) (Eext : option (particle -> vec)) (ext : option bool) (pin : particle)
    (c : tctx (K:=option traj)) (fi : Z) (p : particle) (t : R) : res (tctx (K:=option traj)) :=
  match Es with
  | None => Raise TypeError
  | Some e =>
    let! x := match Eext, ext with
              | None, _ => Ok (replicate dE 0)
              | Some _, Some false => Raise NameError
              | Some h, _ => Ok (h pin)
              end in
    let! T := record_datum (usr c) sn p fi step t e x true in
    Ok (TCtx (scr c) T)
  end.

(** The same in the neutral mover, lines 2055-2064. *)
Definition rec_crossing_neutral (sn : string) (step : Z)
    (c : tctx (K:=option traj)) (fi : Z) (p : particle) (t : R) : res (tctx (K:=option traj)) :=
  let! T := record_datum (usr c) sn p fi step t [] [] true in
  Ok (TCtx (scr c) T).

(** Bookkeeping after tracking, lines 1810-1814, 1822-1827 and 2102-2106, 2114-2119. *)
Definition keep_particle (sn : string) (c : tctx (K:=option traj)) (ch : bool) (fi fo : Z) (q : particle)
    : res (tctx (K:=option traj)) :=
  match usr c with
  | Some T =>
    if is_traj q && ch then
      let! T1 := update_particleId T sn fi fo in Ok (TCtx (scr c) (Some T1))
    else Ok c
  | None => Ok c
  end.
Definition drop_particle (sn : string) (step : Z) (time dt : R) (zE : vec)
    (c : tctx (K:=option traj)) (fi : Z) (p q : particle) : res (tctx (K:=option traj)) :=
  match usr c with
  | Some T =>
    if is_traj p then
      let! T1 := remove_particleId T sn q fi step time dt zE in Ok (TCtx (scr c) (Some T1))
    else Ok c
  | None => Ok c
  end.

(** [advance_charged_species_in_E_field(sn, ctrl, neg_E_field, external_E_field, accel_only)],
    lines 1416-1853, as the per-particle part of the mover loop of MoverModel.v.
    [qmdt] is [self.qom[sn]*dt] (line 1459). *)
Definition charged_hooks (sn : string) (step : Z) (time dt qom : R) (maxc : Z) (m : mesh)
    (bcs : Z -> option (bcfun (K:=option traj))) (dE : nat) (negE Eext : option (particle -> vec))
    (solved ext : option bool) (accel_only : bool) : hooks particle (tctx (K:=option traj)) :=
  Hooks
    (fun c fi p =>
       let! Es := select_E dE negE Eext solved ext p in
       advance_charged fl bcs (rec_crossing_charged sn step dE Es Eext ext p)
         accel_only m maxc fi time dt (fl (qom * dt)) Es p c)
    is_deleted
    (keep_particle sn)
    (drop_particle sn step time dt (replicate dE 0)).

(** [advance_neutral_species(species_name, ctrl)], lines 1880-2145. *)
Definition neutral_hooks (sn : string) (step : Z) (time dt : R) (maxc : Z) (m : mesh)
    (bcs : Z -> option (bcfun (K:=option traj))) : hooks particle (tctx (K:=option traj)) :=
  Hooks
    (fun c fi p =>
       advance_neutral fl bcs (rec_crossing_neutral sn step) m maxc fi time dt p c)
    is_deleted
    (keep_particle sn)
    (drop_particle sn step time dt []).

End Record.
