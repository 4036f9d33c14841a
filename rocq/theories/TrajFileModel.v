(** Model of the trajectory files: [Trajectory_C.write_trajectories_to_files] of /repo/RecordedData_Module.py, the selection of the
    recorded components in /repo/Particle_Module.py, and the last lines of /repo/examples/sphere1D/sphere1D.py.

    An exception ends the program; what the file that was open at that moment contains is not modelled. *)
From stdpp Require Import strings pretty.
From Verif Require Export Vec SapModel TrackModel TrajModel DiagModel RunModel.

(** The format of a component in [charged_dict] or [neutral_dict]: a floating-point type with its rounding, an integer type with its
    wrapping, or something else (RecordedData_Module.py lines 623-629 distinguish these three).  Types of more than 64 bits are left
    out, so that the conversion to 64 bits in lines 674-675 is exact. *)
Inductive format := FFloat (rnd : R -> R) | FInt (wrap : Z -> Z) | FOther.
(** [charged_dict] or [neutral_dict], {'names': [...], 'formats': [...]}, RecordedData_Module.py lines 299-301, 366-370. *)
Definition tdict : Type := list (string * format).

(** What [Trajectory_C.__init__] is given (RecordedData_Module.py lines 328, 366-396), and the names of the components of
    [Particle_C]: [position_coordinates] (Particle_Module.py lines 174-180), the attributes of [particle_dtype] (lines 248-277) and
    the names of [negE1] and [Eext1] (lines 549-561). *)
Record tconf := TConf {
  tc_charged : list string;                      (* charged_species *)
  tc_neutral : list string;                      (* neutral_species *)
  tc_cdict : tdict;                              (* charged_dict *)
  tc_ndict : tdict;                              (* neutral_dict *)
  tc_title : string;                             (* ctrl.title *)
  tc_author : string;                            (* ctrl.author *)
  tc_sindex : string -> Z;                       (* species_index *)
  tc_mass : string -> R;                         (* species_mass *)
  tc_charge : string -> R;                       (* species_charge *)
  tc_coords : list string;                       (* position_coordinates *)
  tc_column : string -> option (particle -> val);(* attributes of particle_dtype *)
  tc_Enames : list string;                       (* negE1.dtype.names *)
  tc_Extnames : list string;                     (* Eext1.dtype.names *)
  tc_junk : string -> val                        (* contents of memory never written *)
}.

(** [x in names] with the position: helper for the selection below. *)
Fixpoint position (x : string) (names : list string) : option nat :=
  match names with
  | [] => None
  | y :: r => if String.eqb x y then Some O else match position x r with Some i => Some (S i) | None => None end
  end.

(** [position_coordinates] for a coordinate system; any other value is a RuntimeError.  Particle_Module.py lines 173-186. *)
Definition coordinates (system : string) : option (list string) :=
  if String.eqb system "cartesian_x" then Some ["x"] else
  if String.eqb system "spherical_r" then Some ["r"] else
  if String.eqb system "cartesian_xy" then Some ["x"; "y"] else
  if String.eqb system "cartesian_xyz" then Some ["x"; "y"; "z"] else None.
(** The attributes of a particle: positions, positions at the start of the push, velocities, and five more; Particle_Module.py lines
    190-195, 248-277. *)
Definition particle_column (cs : list string) (c : string) : option (particle -> val) :=
  match position c cs with Some i => Some (fun p => VF (default 0 (px p !! i))) | None =>
  match position c (map (fun a => a +:+ "0") cs) with Some i => Some (fun p => VF (default 0 (px0 p !! i))) | None =>
  match position c (map (fun a => "u" +:+ a) cs) with Some i => Some (fun p => VF (default 0 (pu p !! i))) | None =>
  if String.eqb c "weight" then Some (fun p => VF (pw p)) else
  if String.eqb c "bitflags" then Some (fun p => VI (pbits p)) else
  if String.eqb c "cell_index" then Some (fun p => VI (pcell p)) else
  if String.eqb c "unique_ID" then Some (fun p => VI (puid p)) else
  if String.eqb c "crossings" then Some (fun p => VI (pcross p)) else None
  end end end.
(** The names of [negE1] and [Eext1], Particle_Module.py lines 551 and 558. *)
Definition E1_names (comps : list string) : list string := map (fun a => "E" +:+ a) comps.
Definition Eext1_names (comps : list string) : list string := map (fun a => "E" +:+ a +:+ "_ext") comps.

Section Files.
Context (tc : tconf).

(** Which value is recorded for the component [comp] of a point, Particle_Module.py lines 2399-2421, 2508-2536, 2768-2779, 2803-2809:
    a chain of tests on the name; the fields only for charged species.  For a position coordinate it is the position of the point
    ([d_x], which is that at the beginning of the rest of the move when a boundary was crossed, lines 2515-2516).  A name that is not
    known is not written. *)
Definition component (charged : bool) (comp : string) (d : datum) : option val :=
  if String.eqb comp "step" then Some (VI (d_step d)) else
  if String.eqb comp "t" then Some (VF (d_time d)) else
  match tc_column tc comp with
  | Some col =>
    match position comp (tc_coords tc) with
    | Some i => Some (VF (default 0 (d_x d !! i)))
    | None => Some (col (d_p d))
    end
  | None =>
    if charged then
      match position comp (tc_Enames tc) with
      | Some i => Some (VF (default 0 (d_E d !! i)))
      | None =>
        match position comp (tc_Extnames tc) with
        | Some i => Some (VF (default 0 (d_Eext d !! i)))
        | None => None
        end
      end
    else None
  end.
(** Assignment of a value to an element of a numpy array: conversion to its format (the same lines).  Assignment to something that
    is not a number is not modelled. *)
Definition stored (f : format) (v : val) : val :=
  match f, v with
  | FFloat rnd, VF x => VF (rnd x)
  | FFloat rnd, VI z => VF (rnd (IZR z))
  | FInt wrap, VF x => VI (wrap (py_int x))
  | FInt wrap, VI z => VI (wrap z)
  | FOther, _ => v
  end.
(** [trajectoryData[name][i]], RecordedData_Module.py lines 669 and 675; [o] is the point [i]. *)
Definition recorded (charged : bool) (comp : string) (f : format) (o : option datum) : val :=
  match o with
  | Some d => match component charged comp d with Some v => stored f v | None => tc_junk tc comp end
  | None => tc_junk tc comp
  end.

(** A group of a trajectory file: its name, the attribute TimeValue and the datasets. *)
Record tgroup := TGroup { tg_name : string; tg_time : val; tg_sets : list (string * val) }.
(** An attribute of the file: a string or a number. *)
Inductive attr := AString (s : string) | ANumber (x : R).
(** A trajectory file: attributes and groups. *)
Record tfile := TFile { tf_attrs : list (string * attr); tf_groups : list tgroup }.

(** [group.create_dataset(name, data=h5Buf[0])] for the components one after the other, lines 673-677.  A name that exists is a
    ValueError of h5py. *)
Fixpoint write_sets (charged : bool) (dict : tdict) (o : option datum) (done : list (string * val)) : res (list (string * val)) :=
  match dict with
  | [] => Ok done
  | (comp, f) :: r =>
    if existsb (fun cv => String.eqb comp (fst cv)) done then Raise ValueError else
    write_sets charged r o (done ++ [(comp, recorded charged comp f o)])
  end.
(** One pass of the loop of line 664: [create_group], [TimeValue] (a dictionary without 't' is a ValueError of numpy) and the
    datasets, lines 665-677. *)
Definition write_group (charged : bool) (dict : tdict) (es : list (option datum)) (i : nat) (gs : list tgroup) : res (list tgroup) :=
  let name := "Step#" +:+ pretty i in
  if existsb (fun g => String.eqb name (tg_name g)) gs then Raise ValueError else
  match list_find (fun cf => fst cf = "t") dict with
  | None => Raise ValueError
  | Some (_, (_, f)) =>
    match es !! i with
    | None => Raise IndexError
    | Some o =>
      let! sets := write_sets charged dict o [] in
      Ok (gs ++ [TGroup name (recorded charged "t" f o) sets])
    end
  end.
(** [for i in range(nTimes)], lines 663-664. *)
Fixpoint write_groups (charged : bool) (dict : tdict) (es : list (option datum)) (is : list nat) (gs : list tgroup) : res (list tgroup) :=
  match is with
  | [] => Ok gs
  | i :: r => let! gs1 := write_group charged dict es i gs in write_groups charged dict es r gs1
  end.

(** [h5FileName], line 645. *)
Definition traj_file_name (sn : string) (uid : Z) : string := "traj-" +:+ sn +:+ "-uid" +:+ pretty uid +:+ ".h5part".
(** The attributes of a file, lines 649-660. *)
Definition traj_attrs (sn : string) : list (string * attr) :=
  let k := pretty (tc_sindex tc sn) : string in
  [("Title:", AString (tc_title tc)); ("Author:", AString (tc_author tc)); ("particle_type_" +:+ k, AString sn);
   ("mass_" +:+ k, ANumber (tc_mass tc sn)); ("charge_" +:+ k, ANumber (tc_charge tc sn))].

(** The files of the working directory. *)
Definition files : Type := string -> option tfile.

(** [for it in range(len(self.particle_index_list[sp]))], lines 633-679: one trajectory after the other; the file is opened with
    mode "w", which replaces a file of that name. *)
Fixpoint write_entries (charged : bool) (dict : tdict) (sn : string) (es : list entry) (fs : files) : res files :=
  match es with
  | [] => Ok fs
  | e :: r =>
    let! gs := write_groups charged dict (e_data e) (seq 0 (Z.to_nat (e_len e))) [] in
    write_entries charged dict sn r (set_key fs (traj_file_name sn (e_uid e)) (Some (TFile (traj_attrs sn) gs)))
  end.

(** Lines 619-630: every component must be a floating-point number or an integer. *)
Definition numeric (f : format) : bool := match f with FOther => false | _ => true end.

(** The loop over the species, lines 603-679.  The type of the arrays is that of [create_trajectory]: [charged_dict] for charged
    species, [neutral_dict] for the others (lines 443-447). *)
Fixpoint write_species (sns : list string) (T : traj) (fs : files) : res files :=
  match sns with
  | [] => Ok fs
  | sn :: r =>
    match t_sp T sn with
    | [] => write_species r T fs
    | es =>
      let charged := existsb (String.eqb sn) (tc_charged tc) in
      let dict := if charged then tc_cdict tc else tc_ndict tc in
      if negb (forallb (fun cf => numeric (snd cf)) dict) then Raise RuntimeError else
      let! fs1 := write_entries charged dict sn es fs in
      write_species r T fs1
    end
  end.
(** [write_trajectories_to_files()], lines 586-681. *)
Definition write_trajectories (T : traj) (fs : files) : res files := write_species (tc_charged tc ++ tc_neutral tc) T fs.
End Files.

(** The program of sphere1D.py from line 1189 to its end, line 1401; [wanted] is [ctrl.write_trajectory_files is True]. *)
Definition program (fl st32 : R -> R) (u : setup) (tc : tconf) (wanted file : bool) (ini : option (list initial)) (n : nat) (w : runst)
    (fs : files) : res (runst * files) :=
  let! w' := main_run fl st32 u file ini n w in
  match ss_traj (rs_src w') with
  | None => Ok (w', fs)
  | Some T => if wanted then let! fs1 := write_trajectories tc T fs in Ok (w', fs1) else Ok (w', fs)
  end.
