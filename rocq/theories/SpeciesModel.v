(** Model of the species tables of [Particle_C] (/repo/Particle_Module.py): the constructor, lines 154-448, and
    [initialize_particle_integration], lines 511-594.

    Simplifications that hold for the whole file:
    - Charges and masses are real numbers, the quotient is rounded by [fl]; they are Python floats, for which a division by
      zero raises (a numpy scalar would give an infinity).
    - The printed messages, the scratch arrays and the attributes that are only copied from the input or set to None are
      left out.  Importing one of the shared libraries succeeds. *)
From stdpp Require Import strings.
From Coq Require Import String Ascii Reals.
From Verif Require Export Base SapModel SapCpp BcTableModel.
From Verif Require Import Vec.
Local Open Scope string_scope.
Local Open Scope list_scope.
Local Infix "^^" := String.append (at level 60, right associativity).

(** [SEGMENT_LENGTH], line 137. *)
Definition SEGMENT_LENGTH : Z := 100%Z.

(** ** The species *)

(** [ParticleSpecies_C], lines 104-107. *)
Record species := Species {
  sp_name : string;
  sp_charge : R;
  sp_mass : R;
  sp_dynamics : string
}.
(** Whether [ParticleSpecies_C.__init__] warns that the charge of a neutral species will be ignored, lines 100-102. *)
Definition charge_warning (sp : species) : bool :=
  String.eqb (sp_dynamics sp) "neutral" && negb (Reqb (sp_charge sp) 0).

(** ** The particle record *)

(** The numpy types used in the record: lines 253, 258, 261, 264, 268. *)
Inductive npfmt := Float32 | Float64 | Int32.
Global Instance npfmt_eqdec : EqDecision npfmt.
Proof. solve_decision. Defined.

(** [self.position_coordinates], lines 173-186; [None] is Python's None. *)
Definition position_coordinates (cs : option string) : res (list string) :=
  match cs with
  | Some c =>
    if String.eqb c "cartesian_x" then Ok ["x"]
    else if String.eqb c "spherical_r" then Ok ["r"]
    else if String.eqb c "cartesian_xy" then Ok ["x"; "y"]
    else if String.eqb c "cartesian_xyz" then Ok ["x"; "y"; "z"]
    else Raise RuntimeError
  | None => Raise RuntimeError
  end.
(** [initialPositionCoordinates], line 191, [velocity_coordinates], line 193, and [phase_coordinates], line 195. *)
Definition initial_coordinates (pos : list string) : list string := map (fun c => c ^^ "0") pos.
Definition velocity_coordinates (pos : list string) : list string := map (fun c => "u" ^^ c) pos.
Definition phase_coordinates (pos : list string) : list string :=
  pos ++ initial_coordinates pos ++ velocity_coordinates pos.
(** [particleAttributes], lines 252-270: the names with their formats. *)
Definition particle_dtype (precision : npfmt) (pos : list string) : list (string * npfmt) :=
  map (fun v => (v, precision)) (phase_coordinates pos ++ ["weight"]) ++
  [("bitflags", Int32); ("cell_index", Int32); ("unique_ID", Int32); ("crossings", Int32)].

(** ** The constructor *)

(** [use_cpp_integrators]: None, True, or any other value. *)
Inductive cpp_choice := CppNone | CppTrue | CppOther.

Section Plasma.
Context {A : Type} (fl : R -> R).

(** The storage of one species: a C++ container for the records of a coordinate system (lines 341-366) or a Python one
    (line 374). *)
Inductive storage :=
| CppStorage (coords : string) (s : sap A)
| PyStorage (dtype : list (string * npfmt)) (s : sap A).

(** The attributes that the constructor sets; dictionaries have the species names as keys. *)
Record plasma := Plasma {
  P_coordinates : string;                        (* coordinate_system, line 167 *)
  P_use_cpp : cpp_choice;                        (* line 168 *)
  P_position : list string;                      (* position_coordinates, lines 174-180 *)
  P_dtype : list (string * npfmt);               (* particle_dtype, line 275 *)
  P_number_of_species : Z;                       (* line 206 *)
  P_names : list string;                         (* species_names, line 212 *)
  P_class : list (string * species);             (* species_class_dict, line 217 *)
  P_index : list (string * Z);                   (* species_index, lines 221-226 *)
  P_charge : list (string * R);                  (* line 292 *)
  P_mass : list (string * R);                    (* line 300 *)
  P_qom : list (string * R);                     (* line 301 *)
  P_dynamics : list (string * string);           (* line 311 *)
  P_charged : list string;                       (* charged_species, lines 243, 297 *)
  P_neutral : list string;                       (* neutral_species, lines 244, 295 *)
  P_storage : list (string * storage);           (* sap_dict, lines 246, 341-374 *)
  P_count : list (string * Z);                   (* particle_count, lines 248, 377 *)
  P_h5_buffer_length : Z                         (* line 439 *)
}.

(** [species_index], lines 221-226: the loop over the names. *)
Fixpoint index_loop (names : list string) (isp : Z) (d : list (string * Z)) : list (string * Z) :=
  match names with
  | [] => d
  | sn :: r => index_loop r (isp + 1)%Z (dict_set d sn (isp + 1)%Z)
  end.

(** One turn of the loop over the species, lines 286-377. *)
Definition species_turn (P : plasma) (sp : species) : res plasma :=
  let sn := sp_name sp in
  let neutral := Reqb (sp_charge sp) 0 in
  if Reqb (sp_mass sp) 0 then Raise ZeroDivisionError
  else
    match P_use_cpp P with
    | CppNone => Raise RuntimeError
    | uc =>
      let store :=
        match uc with
        | CppTrue => CppStorage (P_coordinates P) (c_init SEGMENT_LENGTH)
        | _ => PyStorage (P_dtype P) (sap_init SEGMENT_LENGTH)
        end in
      Ok (Plasma (P_coordinates P) uc (P_position P) (P_dtype P) (P_number_of_species P) (P_names P) (P_class P) (P_index P)
            (dict_set (P_charge P) sn (sp_charge sp))
            (dict_set (P_mass P) sn (sp_mass sp))
            (dict_set (P_qom P) sn (fl (sp_charge sp / sp_mass sp)))
            (dict_set (P_dynamics P) sn (sp_dynamics sp))
            (if neutral then P_charged P else P_charged P ++ [sn])
            (if neutral then P_neutral P ++ [sn] else P_neutral P)
            (dict_set (P_storage P) sn store)
            (dict_set (P_count P) sn 0%Z)
            (P_h5_buffer_length P))
    end.
(** The loop over the species, lines 286-377. *)
Fixpoint species_loop (P : plasma) (sps : list species) : res plasma :=
  match sps with
  | [] => Ok P
  | sp :: r => let! P' := species_turn P sp in species_loop P' r
  end.

(** [__init__(particle_input)], lines 154-448. *)
Definition new_plasma (precision : npfmt) (cs : option string) (uc : cpp_choice) (sps : list species) : res plasma :=
  let! pos := position_coordinates cs in
  let names := map sp_name sps in
  species_loop
    (Plasma (default "" cs) uc pos (particle_dtype precision pos) (Z.of_nat (length sps)) names
       (dict_of (map (fun sp => (sp_name sp, sp)) sps)) (index_loop names 0 [])
       [] [] [] [] [] [] [] [] (Z.of_nat (length sps) * SEGMENT_LENGTH)%Z) sps.

(** ** The movers *)

(** The functions that [self.integrators] can hold: lines 587, 590 (Python) and 573-581 (C++; the number is that of the
    facets of a cell). *)
Inductive integrator := PyCharged | PyNeutral | CppCharged (facets : Z) | CppNeutral (facets : Z).

(** Which movers the shared library of a coordinate system binds: /repo/cpp/particle_solib.cpp lines 79-99. *)
Definition has_mover (coords : string) (i : integrator) : bool :=
  match i with
  | CppCharged n =>
    if String.eqb coords "cartesian_xy" then (n =? 3)%Z
    else if String.eqb coords "cartesian_x" then (n =? 2)%Z
    else if String.eqb coords "spherical_r" then (n =? 2)%Z
    else false
  | CppNeutral n =>
    if String.eqb coords "cartesian_xyz" then (n =? 2)%Z || (n =? 3)%Z || (n =? 4)%Z
    else if String.eqb coords "cartesian_xy" then (n =? 2)%Z || (n =? 3)%Z
    else false
  | _ => true
  end.
(** [self.integrators[sn] = getattr(...)] for the species of one list, lines 571-581 and 585-590. *)
Fixpoint assign_integrator (coords : string) (i : integrator) (sns : list string) (d : list (string * integrator)) :
  res (list (string * integrator)) :=
  match sns with
  | [] => Ok d
  | sn :: r => if has_mover coords i then assign_integrator coords i r (dict_set d sn i) else Raise AttributeError
  end.
(** [initialize_particle_integration()], lines 511-594: [self.integrators].  [tdim] is the topological dimension of the
    particle mesh, None if there is no mesh yet. *)
Definition integrators (P : plasma) (tdim : option Z) : res (list (string * integrator)) :=
  match P_use_cpp P with
  | CppTrue =>
    match tdim with
    | None => Raise AttributeError
    | Some t =>
      let! d := assign_integrator (P_coordinates P) (CppCharged (t + 1)%Z) (P_charged P) [] in
      assign_integrator (P_coordinates P) (CppNeutral (t + 1)%Z) (P_neutral P) d
    end
  | _ =>
    let! d := assign_integrator (P_coordinates P) PyCharged (P_charged P) [] in
    assign_integrator (P_coordinates P) PyNeutral (P_neutral P) d
  end.

(** The species that one step of the charged movers advances, [advance_charged_particles_in_E_field] lines 1401-1410, and
    one of the neutral movers, [advance_neutral_particles] lines 1865-1873: the species of the list that have particles,
    each with its integrator, in order; a missing integrator is a KeyError. *)
Fixpoint movers_called (count : string -> Z) (d : list (string * integrator)) (sns : list string) :
  res (list (string * integrator)) :=
  match sns with
  | [] => Ok []
  | sn :: r =>
    if (count sn =? 0)%Z then movers_called count d r
    else match dict_get d sn with
         | None => Raise KeyError
         | Some i => let! l := movers_called count d r in Ok ((sn, i) :: l)
         end
  end.
End Plasma.
Arguments storage : clear implicits.
Arguments plasma : clear implicits.
