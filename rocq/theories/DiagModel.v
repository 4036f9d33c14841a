(** Model of the diagnostics of [Particle_C] in /repo/Particle_Module.py: loops over the "out" segments, counts and
    sums, the particle output file and the histories; and of the sampling intervals of /repo/RecordedData_Module.py. *)
From Coq Require Export String.
From Flocq Require Import Core.
From stdpp Require Import strings.
From Verif Require Export Vec SapModel TrackModel.

(** Assignment to one key of a dictionary whose keys are species names ([sap_dict], Particle_Module.py line 386). *)
Definition set_key {V} (f : string -> V) (k : string) (v : V) : string -> V :=
  fun s => if String.eqb s k then v else f s.

(** [int(x)] of a Python float: towards zero. *)
Definition py_int (x : R) : Z := Ztrunc x.

(** ** The loop over the "out" segments *)
Section OutLoop.
Context {A St : Type}.
Context (body : St -> Z -> list (option A) -> res St).

(** [(npSeg, pseg) = sap.init_out_loop()
     while isinstance(pseg, np_m.ndarray):
         <body>
         (npSeg, pseg) = sap.get_next_segment("out")]:
    Particle_Module.py lines 737-740, 797-803, 826-844, 917-930, 3222-3232.  [fuel] bounds the recursion; the number of
    segments plus one is enough (DiagProofs.v). *)
Fixpoint for_out_rest (fuel : nat) (s : sap A) (st : St) : res (sap A * St) :=
  match fuel with
  | O => Raise OutOfFuel
  | S f =>
    let! (s1, (n, b)) := get_next_segment s false in
    match b with
    | None => Ok (s1, st)
    | Some v => let! st1 := body st n v in for_out_rest f s1 st1
    end
  end.
Definition for_out (s : sap A) (st : St) : res (sap A * St) :=
  let! (s1, (n, b)) := init_out_loop s in
  match b with
  | None => Ok (s1, st)
  | Some v =>
    let! st1 := body st n v in
    for_out_rest (Z.to_nat (nseg (arr s (out_sa s)) + 1)) s1 st1
  end.
End OutLoop.

(** ** Counts and sums *)

(** A slot of a segment as the code sees it: a slot of [np_m.empty] that was never written holds the particle
    [junk], about which nothing is known. *)
Definition seen (junk : particle) (o : option particle) : particle := default junk o.

(** [np_m.sum] of the values of a segment.  Modelled in exact arithmetic: numpy's order of summation is not. *)
Definition Rsum (l : list R) : R := fold_right Rplus 0 l.

Section Sums.
Context (junk : particle).

(** [get_species_number(species_name)]: lines 722-747.  [pseg['weight']] is the whole slice. *)
Definition get_species_number (s : sap particle) : res (sap particle * R) :=
  for_out (fun num _ v => Ok (num + Rsum (map (fun o => pw (seen junk o)) v))) s 0.

(** [get_species_KE(species_name)]: lines 785-812; [nv] is the number of velocity coordinates
    ([len(self.velocity_coordinates)]) and [mass] is [self.mass[species_name]]. *)
Definition ke_segment (nv : nat) (ke : R) (v : list (option particle)) : R :=
  fold_left (fun ke i => ke + Rsum (map (fun o => pw (seen junk o) * (List.nth i (pu (seen junk o)) 0) ^ 2) v)) (seq 0 nv) ke.
Definition get_species_KE (nv : nat) (mass : R) (s : sap particle) : res (sap particle * R) :=
  let! (s1, ke) := for_out (fun ke _ v => Ok (ke_segment nv ke v)) s 0 in
  Ok (s1, ke * (0.5 * mass)).
End Sums.

(** [get_total_particle_count()]: lines 766-781; one species: lines 751-764. *)
Definition total_count {A} (names : list string) (saps : string -> sap A) : Z :=
  fold_left (fun n sn => (n + get_number_of_items (saps sn))%Z) names 0%Z.

(** ** The particle output file *)

(** A 64-bit value of the buffer: float64 or int64. *)
Inductive val := VF (x : R) | VI (z : Z).
(** The numpy kind of an attribute, as far as lines 3188-3199 distinguish it. *)
Inductive akind := AFloat | AInt | AOther.

(** One group of the file: the number in its name ["Step#" + str(h5_step_counter)], its TimeValue and its datasets. *)
Record group := Group { g_number : Z; g_time : R; g_data : list (string * list (option val)) }.

Section Dump.
Context {A : Type}.

(** The attributes of [Particle_C] that [write_particles_to_file] uses, set at lines 221-226, 386, 432-440 and 3104-3145.
    [o_file] and [o_open] are the file behind [particle_output_handle]. *)
Record outst := OutSt {
  o_saps : string -> sap A;
  o_blen : Z;
  o_buf : list (option val);
  o_counter : Z;
  o_last : Z;
  o_file : list group;
  o_open : bool
}.

Context (fl : R -> R) (L : Z).
(** [species_names], [species_index], and the columns of [particle_dtype] with their kinds. *)
Context (names : list string) (sindex : string -> Z) (column : string -> option (akind * (A -> val))).

(** [__init__], lines 432-440: the state before the output file is opened. *)
Definition out_init (saps : string -> sap A) : outst :=
  let n := (Z.of_nat (length names) * L)%Z in
  OutSt saps n (replicate (Z.to_nat n) None) 0 (-1) [] false.
(** [initialize_particle_output_file(ctrl)], lines 3104-3145; the attributes of the file are not modelled. *)
Definition open_file (o : outst) : outst :=
  OutSt (o_saps o) (o_blen o) (o_buf o) 0 (o_last o) [] true.

(** [h5Buf[a:a+len(vs)] = vs] for a numpy array: a slice that ends outside is shortened, and then the assignment
    is a ValueError, except that one value is repeated (line 3229). *)
Definition slice_set (buf : list (option val)) (a : Z) (vs : list (option val)) : res (list (option val)) :=
  let a0 := Z.to_nat a in
  let room := (Nat.min (a0 + length vs) (length buf) - a0)%nat in
  let put ws := take a0 buf ++ ws ++ drop (a0 + length ws) buf in
  if (room =? length vs)%nat then Ok (put vs)
  else match vs with
       | [v] => Ok (put (replicate room v))
       | _ => Raise ValueError
       end.
(** [h5Buf[a:a+n] = v] for one value (line 3213): the shortened slice is filled without an error. *)
Definition slice_fill (buf : list (option val)) (a n : Z) (v : option val) : list (option val) :=
  let a0 := Z.to_nat a in
  let room := (Nat.min (a0 + Z.to_nat n) (length buf) - a0)%nat in
  take a0 buf ++ replicate room v ++ drop (a0 + room) buf.

(** The loop over species for one attribute, lines 3202-3232.  [f] is the column; [None] is 'species_index'. *)
Fixpoint dump_species (f : option (A -> val)) (sps : list string) (saps : string -> sap A)
    (buf : list (option val)) (off : Z) : res ((string -> sap A) * list (option val) * Z) :=
  match sps with
  | [] => Ok (saps, buf, off)
  | sn :: r =>
    let n := get_number_of_items (saps sn) in
    if (n =? 0)%Z then dump_species f r saps buf off else
    match f with
    | None => dump_species f r saps (slice_fill buf off n (Some (VI (sindex sn)))) (off + n)%Z
    | Some g =>
      let! (s1, (buf1, off1)) :=
        for_out (fun st npSeg v =>
                   let! b1 := slice_set (fst st) (snd st) (map (fmap g) (take (Z.to_nat npSeg) v)) in
                   Ok (b1, (snd st + npSeg)%Z))
                (saps sn) (buf, off) in
      dump_species f r (set_key saps sn s1) buf1 off1
    end
  end.

(** The loop over attributes, lines 3183-3236.  An unknown attribute is a KeyError (line 3190), a kind that is neither
    float nor integer a RuntimeError (line 3199); [create_dataset] with a name that exists is a ValueError. *)
Fixpoint dump_attrs (atts : list string) (saps : string -> sap A) (buf : list (option val))
    (data : list (string * list (option val)))
    : res ((string -> sap A) * list (option val) * list (string * list (option val))) :=
  match atts with
  | [] => Ok (saps, buf, data)
  | pA :: r =>
    let! f :=
      (if String.eqb pA "species_index" then Ok None else
       match column pA with
       | None => Raise KeyError
       | Some (AOther, _) => Raise RuntimeError
       | Some (_, g) => Ok (Some g)
       end) in
    let! (saps1, buf1, off) := dump_species f names saps buf 0 in
    if existsb (fun d => String.eqb (fst d) pA) data then Raise ValueError else
    dump_attrs r saps1 buf1 (data ++ [(pA, take (Z.to_nat off) buf1)])
  end.

(** [write_particles_to_file(ctrl, close_flag)]: lines 3151-3258.  [create_group] is a ValueError when the file is
    closed or the name exists. *)
Definition write_particles (atts : list string) (step : Z) (time : R) (close_flag : bool) (o : outst) : res outst :=
  if (step =? o_last o)%Z then Ok o else
  if negb (o_open o) || existsb (fun g => g_number g =? o_counter o)%Z (o_file o) then Raise ValueError else
  let total := total_count names (o_saps o) in
  let '(blen, buf) :=
    if (o_blen o <? total)%Z then
      let newNumSegs := py_int (fl (1 + fl (IZR total / IZR L))) in
      let n := (newNumSegs * L)%Z in (n, replicate (Z.to_nat n) None)
    else (o_blen o, o_buf o) in
  let! (saps, buf1, data) := dump_attrs atts (o_saps o) buf [] in
  Ok (OutSt saps blen buf1 (o_counter o + 1) step (o_file o ++ [Group (o_counter o) time data]) (negb close_flag)).
End Dump.
Arguments outst : clear implicits.

(** ** Histories *)

(** [History_C.__init__] and [ParticleHistory_C.__init__], RecordedData_Module.py lines 110-141 and 163-206: [skip] and
    [npoints].  With [max_points] set, line 127 uses the unbound name [max_points]: NameError. *)
Definition history_init (fl : R -> R) (n_timesteps : Z) (max_points : option Z) : res (Z * Z) :=
  match max_points with
  | None =>
    let skip := 1%Z in
    Ok (skip, py_int (fl (fl (IZR n_timesteps / IZR skip) + 1)))
  | Some _ => Raise NameError
  end.

(** [Trajectory_C.__init__], lines 374-381: [skip] and [npoints].  Division by zero is ZeroDivisionError, and
    [None] for [extra_points] (the default, line 312) is a TypeError. *)
Definition traj_init (fl : R -> R) (n_timesteps : Z) (max_points extra_points : option Z) : res (Z * Z) :=
  let! skip :=
    match max_points with
    | None => Ok 1%Z
    | Some mp => if (mp =? 0)%Z then Raise ZeroDivisionError else Ok (py_int (fl (fl (IZR n_timesteps / IZR mp) + 1)))
    end in
  match extra_points with
  | None => Raise TypeError
  | Some x =>
    if (skip =? 0)%Z then Raise ZeroDivisionError else
    Ok (skip, py_int (fl (fl (fl (IZR n_timesteps / IZR skip) + 1) + IZR x)))
  end.

(** One row of the history array: step, time, and for every requested history the total and, for every species in
    order, the value and the value per physical particle.  (The array has one column per name; the row is the same
    data in another order.) *)
Record hrow := HRow { h_step : Z; h_time : R; h_vals : list (R * list (R * R)) }.

(** The history object: [npoints], [counter] and the array ([np_m.zeros]; the model marks unwritten rows by None). *)
Record hist := Hist { h_npoints : Z; h_counter : Z; h_rows : list (option hrow) }.
Definition hist_new (npoints : Z) : hist := Hist npoints 0 (replicate (Z.to_nat npoints) None).

Section Hist.
Context {W : Type}.
(** [fl] is the arithmetic (float64), [st] the rounding of the float32 columns; [W] is the state that the history
    functions change (the loop cursors); [number] is [get_species_number], [values] the functions of
    [history_function_dict] for the requested histories (lines 408-414). *)
Context (fl st : R -> R) (names : list string).
Context (number : W -> string -> res (W * R)) (values : list (W -> string -> res (W * R))).

(** The loop over species of one history, lines 2846-2856. *)
Fixpoint record_species (f : W -> string -> res (W * R)) (sps : list string) (w : W) (acc : R) (cols : list (R * R))
    : res (W * R * list (R * R)) :=
  match sps with
  | [] => Ok (w, acc, cols)
  | sp :: r =>
    let! (w1, v) := f w sp in
    let! (w2, n) := number w1 sp in
    record_species f r w2 (fl (acc + v)) (cols ++ [(st v, st (fl (v / Rmax n 1)))])
  end.
Fixpoint record_values (fs : list (W -> string -> res (W * R))) (w : W) : res (W * list (R * list (R * R))) :=
  match fs with
  | [] => Ok (w, [])
  | f :: r =>
    let! (w1, tot, cols) := record_species f names w 0 [] in
    let! (w2, vs) := record_values r w1 in
    Ok (w2, (st tot, cols) :: vs)
  end.
(** [record_history_data(step, time)]: lines 2821-2864.  Writing beyond the array is an IndexError. *)
Definition record_history (step : Z) (time : R) (w : W) (h : hist) : res (W * hist) :=
  let! _ := py_set (h_rows h) (h_counter h) None in
  let! (w1, vs) := record_values values w in
  let! rows := py_set (h_rows h) (h_counter h) (Some (HRow step (st time) vs)) in
  Ok (w1, Hist (h_npoints h) (h_counter h + 1) rows).
End Hist.

(** ** Sampling in a run *)

(** [for istep in range(n): timeloop_count += 1; ...; if timeloop_count % skip == 0: <f>]:
    examples/sphere1D/sphere1D.py lines 1275-1289 (trajectories) and 1366-1367 (histories). *)
Fixpoint sample_loop {St} (skip : Z) (f : Z -> St -> res St) (n : nat) (count : Z) (st : St) : res St :=
  match n with
  | O => Ok st
  | S m =>
    let count1 := (count + 1)%Z in
    let! st1 := (if (count1 mod skip =? 0)%Z then f count1 st else Ok st) in
    sample_loop skip f m count1 st1
  end.

(** The history samples of a run: one before the loop (line 1261), the others in it.  [pop k] is the state at step [k]
    and [time k] the time. *)
Definition run_history {W} (fl st : R -> R) (names : list string) (number : W -> string -> res (W * R))
    (values : list (W -> string -> res (W * R))) (pop : Z -> W) (time : Z -> R) (skip : Z) (n : nat) (h : hist) : res hist :=
  let f k h := let! (_, h1) := record_history fl st names number values k (time k) (pop k) h in Ok h1 in
  let! h0 := f 0%Z h in sample_loop skip f n 0 h0.

(** The history functions that take a species, [history_function_dict], lines 408-414, called with "species_" and the name of
    the history at line 2850: 'species_count' and 'species_KE'; any other name is a KeyError. *)
Definition history_function (junk : particle) (nv : nat) (mass : string -> R) (name : string)
    (saps : string -> sap particle) (sp : string) : res ((string -> sap particle) * R) :=
  if String.eqb name "count" then Ok (saps, IZR (get_number_of_items (saps sp)))
  else if String.eqb name "KE" then
    let! (s1, v) := get_species_KE junk nv (mass sp) (saps sp) in Ok (set_key saps sp s1, v)
  else Raise KeyError.
(** [get_species_number(sp)] as called at line 2853. *)
Definition number_function (junk : particle) (saps : string -> sap particle) (sp : string)
    : res ((string -> sap particle) * R) :=
  let! (s1, v) := get_species_number junk (saps sp) in Ok (set_key saps sp s1, v).

(** The trajectory samples of a run: one before the loop (line 1207), the multiples of [skip] in it (line 1289), and one
    after it (line 1397).  [call k] is [record_trajectory_data] with the particles, fields and time of step [k]. *)
Definition run_trajectories {T} (call : Z -> T -> res T) (skip : Z) (n : nat) (t : T) : res T :=
  let! t0 := call 0%Z t in
  let! t1 := sample_loop skip call n 0 t0 in
  call (Z.of_nat n) t1.
