(** Model of the particle records of the C++ code: the classes [Pstruct<Ptype::...>] (/repo/cpp/Pstruct.h), their numpy
    descriptions (/repo/cpp/numpy_types_solib.cpp) and the [push_back] overloads of [SegmentedArrayPair] that convert a
    tuple or a list (/repo/cpp/SegmentedArrayPair.h).

    The bodies of the member functions are sequences of similar statements; the model writes each sequence as a table, in the
    order of the statements, and gives the meaning of one statement.
    Simplifications that hold for the whole file:
    - A double is an element of a type [F]; [of_int] is the conversion of a Python int to a double, [None] if it overflows.
    - A Python value is an int (or bool), a float, or something that is converted to neither.
    - [int] has 32 bits, [double] 64, and both are aligned to their size. *)
From stdpp Require Import strings.
From Coq Require Import String Ascii.
From Verif Require Export Base SapModel SapCpp.
Local Open Scope string_scope.
Local Open Scope list_scope.

(** [enum class Ptype], Pstruct.h lines 45-51. *)
Inductive ptype := cartesian_x | cartesian_xy | cartesian_xyz | spherical_r.
(** The types of the members. *)
Inductive ctype := CDouble | CInt.

(** The declarations of the members, in order: lines 92-99, 213-223, 351-364, 497-504. *)
Definition members (pt : ptype) : list (string * ctype) :=
  match pt with
  | cartesian_x =>
    [("x_", CDouble); ("x0_", CDouble); ("ux_", CDouble); ("weight_", CDouble);
     ("bitflags_", CInt); ("cell_index_", CInt); ("unique_ID_", CInt); ("crossings_", CInt)]
  | cartesian_xy =>
    [("x_", CDouble); ("y_", CDouble); ("x0_", CDouble); ("y0_", CDouble); ("ux_", CDouble); ("uy_", CDouble); ("weight_", CDouble);
     ("bitflags_", CInt); ("cell_index_", CInt); ("unique_ID_", CInt); ("crossings_", CInt)]
  | cartesian_xyz =>
    [("x_", CDouble); ("y_", CDouble); ("z_", CDouble); ("x0_", CDouble); ("y0_", CDouble); ("z0_", CDouble);
     ("ux_", CDouble); ("uy_", CDouble); ("uz_", CDouble); ("weight_", CDouble);
     ("bitflags_", CInt); ("cell_index_", CInt); ("unique_ID_", CInt); ("crossings_", CInt)]
  | spherical_r =>
    [("r_", CDouble); ("r0_", CDouble); ("ur_", CDouble); ("weight_", CDouble);
     ("bitflags_", CInt); ("cell_index_", CInt); ("unique_ID_", CInt); ("crossings_", CInt)]
  end.
(** [PYBIND11_NUMPY_DTYPE_EX]: member and numpy field name, numpy_types_solib.cpp lines 33-36. *)
Definition numpy_fields (pt : ptype) : list (string * string) :=
  match pt with
  | cartesian_x =>
    [("x_", "x"); ("x0_", "x0"); ("ux_", "ux"); ("weight_", "weight");
     ("bitflags_", "bitflags"); ("cell_index_", "cell_index"); ("unique_ID_", "unique_ID"); ("crossings_", "crossings")]
  | cartesian_xy =>
    [("x_", "x"); ("y_", "y"); ("x0_", "x0"); ("y0_", "y0"); ("ux_", "ux"); ("uy_", "uy"); ("weight_", "weight");
     ("bitflags_", "bitflags"); ("cell_index_", "cell_index"); ("unique_ID_", "unique_ID"); ("crossings_", "crossings")]
  | cartesian_xyz =>
    [("x_", "x"); ("y_", "y"); ("z_", "z"); ("x0_", "x0"); ("y0_", "y0"); ("z0_", "z0"); ("ux_", "ux"); ("uy_", "uy"); ("uz_", "uz");
     ("weight_", "weight");
     ("bitflags_", "bitflags"); ("cell_index_", "cell_index"); ("unique_ID_", "unique_ID"); ("crossings_", "crossings")]
  | spherical_r =>
    [("r_", "r"); ("r0_", "r0"); ("ur_", "ur"); ("weight_", "weight");
     ("bitflags_", "bitflags"); ("cell_index_", "cell_index"); ("unique_ID_", "unique_ID"); ("crossings_", "crossings")]
  end.

(** One statement [member = p[index].cast<type>();]. *)
Definition assign : Type := string * nat * ctype.
(** [set_from_list_or_tuple(py::list p)]: lines 140-150, 266-279, 412-428, 546-556. *)
Definition set_from_list (pt : ptype) : list assign :=
  match pt with
  | cartesian_x =>
    [("x_", 0, CDouble); ("x0_", 1, CDouble); ("ux_", 2, CDouble); ("weight_", 3, CDouble);
     ("bitflags_", 4, CInt); ("cell_index_", 5, CInt); ("unique_ID_", 6, CInt); ("crossings_", 7, CInt)]%nat
  | cartesian_xy =>
    [("x_", 0, CDouble); ("y_", 1, CDouble); ("x0_", 2, CDouble); ("y0_", 3, CDouble); ("ux_", 4, CDouble); ("uy_", 5, CDouble);
     ("weight_", 6, CDouble);
     ("bitflags_", 7, CInt); ("cell_index_", 8, CInt); ("unique_ID_", 9, CInt); ("crossings_", 10, CInt)]%nat
  | cartesian_xyz =>
    [("x_", 0, CDouble); ("y_", 1, CDouble); ("z_", 2, CDouble); ("x0_", 3, CDouble); ("y0_", 4, CDouble); ("z0_", 5, CDouble);
     ("ux_", 6, CDouble); ("uy_", 7, CDouble); ("uz_", 8, CDouble); ("weight_", 9, CDouble);
     ("bitflags_", 10, CInt); ("cell_index_", 11, CInt); ("unique_ID_", 12, CInt); ("crossings_", 13, CInt)]%nat
  | spherical_r =>
    [("r_", 0, CDouble); ("r0_", 1, CDouble); ("ur_", 2, CDouble); ("weight_", 3, CDouble);
     ("bitflags_", 4, CInt); ("cell_index_", 5, CInt); ("unique_ID_", 6, CInt); ("crossings_", 7, CInt)]%nat
  end.
(** [set_from_list_or_tuple(py::tuple p)] of cartesian_x and spherical_r, lines 126-137 and 532-542.  The classes cartesian_xy
    and cartesian_xyz have no such overload (their [set_from_tuple], lines 250-263 and 393-409, is not called): a tuple is
    converted to a list by the constructor of [py::list], with the same items, and the overload for lists is used. *)
Definition set_from_tuple (pt : ptype) : list assign :=
  match pt with
  | cartesian_x =>
    [("x_", 0, CDouble); ("x0_", 1, CDouble); ("ux_", 2, CDouble); ("weight_", 3, CDouble);
     ("bitflags_", 4, CInt); ("cell_index_", 5, CInt); ("unique_ID_", 6, CInt); ("crossings_", 7, CInt)]%nat
  | spherical_r =>
    [("r_", 0, CDouble); ("r0_", 1, CDouble); ("ur_", 2, CDouble); ("weight_", 3, CDouble);
     ("bitflags_", 4, CInt); ("cell_index_", 5, CInt); ("unique_ID_", 6, CInt); ("crossings_", 7, CInt)]%nat
  | _ => set_from_list pt
  end.
(** [as_tuple]: lines 154-158, 282-286, 431-435, 560-564. *)
Definition as_tuple_members (pt : ptype) : list string :=
  match pt with
  | cartesian_x => ["x_"; "x0_"; "ux_"; "weight_"; "bitflags_"; "cell_index_"; "unique_ID_"; "crossings_"]
  | cartesian_xy => ["x_"; "y_"; "x0_"; "y0_"; "ux_"; "uy_"; "weight_"; "bitflags_"; "cell_index_"; "unique_ID_"; "crossings_"]
  | cartesian_xyz =>
    ["x_"; "y_"; "z_"; "x0_"; "y0_"; "z0_"; "ux_"; "uy_"; "uz_"; "weight_"; "bitflags_"; "cell_index_"; "unique_ID_"; "crossings_"]
  | spherical_r => ["r_"; "r0_"; "ur_"; "weight_"; "bitflags_"; "cell_index_"; "unique_ID_"; "crossings_"]
  end.
(** [as_list]: the [append] statements, lines 162-176, 289-306, 438-458, 568-582. *)
Definition as_list_members (pt : ptype) : list string :=
  match pt with
  | cartesian_x => ["x_"; "x0_"; "ux_"; "weight_"; "bitflags_"; "cell_index_"; "unique_ID_"; "crossings_"]
  | cartesian_xy => ["x_"; "y_"; "x0_"; "y0_"; "ux_"; "uy_"; "weight_"; "bitflags_"; "cell_index_"; "unique_ID_"; "crossings_"]
  | cartesian_xyz =>
    ["x_"; "y_"; "z_"; "x0_"; "y0_"; "z0_"; "ux_"; "uy_"; "uz_"; "weight_"; "bitflags_"; "cell_index_"; "unique_ID_"; "crossings_"]
  | spherical_r => ["r_"; "r0_"; "ur_"; "weight_"; "bitflags_"; "cell_index_"; "unique_ID_"; "crossings_"]
  end.
(** [as_dict]: the keyword arguments [key = member], lines 181-186, 310-315, 462-467, 587-591. *)
Definition as_dict_members (pt : ptype) : list (string * string) :=
  match pt with
  | cartesian_x =>
    [("x", "x_"); ("x0", "x0_"); ("ux", "ux_"); ("weight", "weight_");
     ("bitflags", "bitflags_"); ("cell_index", "cell_index_"); ("unique_ID", "unique_ID_"); ("crossings", "crossings_")]
  | cartesian_xy =>
    [("x", "x_"); ("y", "y_"); ("x0", "x0_"); ("y0", "y0_"); ("ux", "ux_"); ("uy", "uy_"); ("weight", "weight_");
     ("bitflags", "bitflags_"); ("cell_index", "cell_index_"); ("unique_ID", "unique_ID_"); ("crossings", "crossings_")]
  | cartesian_xyz =>
    [("x", "x_"); ("y", "y_"); ("z", "z_"); ("x0", "x0_"); ("y0", "y0_"); ("z0", "z0_"); ("ux", "ux_"); ("uy", "uy_"); ("uz", "uz_");
     ("weight", "weight_");
     ("bitflags", "bitflags_"); ("cell_index", "cell_index_"); ("unique_ID", "unique_ID_"); ("crossings", "crossings_")]
  | spherical_r =>
    [("r", "r_"); ("r0", "r0_"); ("ur", "ur_"); ("weight", "weight_");
     ("bitflags", "bitflags_"); ("cell_index", "cell_index_"); ("unique_ID", "unique_ID_"); ("crossings", "crossings_")]
  end.

(** Layout of a struct: the size of a type is also its alignment. *)
Definition csize (t : ctype) : Z := match t with CDouble => 8%Z | CInt => 4%Z end.
Fixpoint offsets_from (at_ : Z) (ms : list (string * ctype)) : list (string * ctype * Z) :=
  match ms with
  | [] => []
  | (m, t) :: r => let o := ((at_ + csize t - 1) / csize t * csize t)%Z in (m, t, o) :: offsets_from (o + csize t)%Z r
  end.
(** Offsets of the members of a record, and [sizeof] (a multiple of 8). *)
Definition c_offsets (pt : ptype) : list (string * ctype * Z) := offsets_from 0 (members pt).
Definition c_sizeof (pt : ptype) : Z :=
  match list.last (c_offsets pt) with
  | Some (_, t, o) => ((o + csize t + 7) / 8 * 8)%Z
  | None => 8%Z
  end.

Section Values.
Context {F : Type} (of_int : Z -> option F).

(** A Python value. *)
Inductive pyval := VInt (z : Z) | VFloat (f : F) | VOther.
(** A record: the values of its members. *)
Record pstruct := PS { ps_double : string -> F; ps_int : string -> Z }.

(** [p[i]] on a tuple or list: IndexError if there is no such item. *)
Definition item (p : list pyval) (i : nat) : res pyval :=
  match p !! i with Some v => Ok v | None => Raise IndexError end.
(** [.cast<double>()]: a failure is a [cast_error], a RuntimeError in Python. *)
Definition cast_double (v : pyval) : res F :=
  match v with
  | VFloat f => Ok f
  | VInt z => match of_int z with Some f => Ok f | None => Raise RuntimeError end
  | VOther => Raise RuntimeError
  end.
(** [.cast<int>()]: floats and integers out of range are refused. *)
Definition cast_int (v : pyval) : res Z :=
  match v with
  | VInt z => if ((-2147483648 <=? z) && (z <=? 2147483647))%Z then Ok z else Raise RuntimeError
  | _ => Raise RuntimeError
  end.
(** [m = x] for a double and an int member. *)
Definition put_double (s : pstruct) (m : string) (x : F) : pstruct :=
  PS (fun m' => if String.eqb m' m then x else ps_double s m') (ps_int s).
Definition put_int (s : pstruct) (m : string) (x : Z) : pstruct :=
  PS (ps_double s) (fun m' => if String.eqb m' m then x else ps_int s m').
(** One statement. *)
Definition run_assign (s : pstruct) (p : list pyval) (a : assign) : res pstruct :=
  let '(m, i, t) := a in
  let! v := item p i in
  match t with
  | CDouble => let! x := cast_double v in Ok (put_double s m x)
  | CInt => let! x := cast_int v in Ok (put_int s m x)
  end.
(** A sequence of statements: the record afterwards and the exception, if one was thrown; the statements before it have
    taken effect. *)
Fixpoint run_assigns (s : pstruct) (p : list pyval) (l : list assign) : pstruct * option exn :=
  match l with
  | [] => (s, None)
  | a :: r => match run_assign s p a with
              | Ok s' => run_assigns s' p r
              | Raise e => (s, Some e)
              end
  end.

(** A member as a Python value, given its declared type. *)
Definition member_value (pt : ptype) (s : pstruct) (m : string) : pyval :=
  match List.find (fun d => String.eqb (fst d) m) (members pt) with
  | Some (_, CDouble) => VFloat (ps_double s m)
  | Some (_, CInt) => VInt (ps_int s m)
  | None => VOther
  end.
(** [as_tuple()], [as_list()], [as_dict()]. *)
Definition as_tuple (pt : ptype) (s : pstruct) : list pyval := map (member_value pt s) (as_tuple_members pt).
Definition as_list (pt : ptype) (s : pstruct) : list pyval := map (member_value pt s) (as_list_members pt).
Definition as_dict (pt : ptype) (s : pstruct) : list (string * pyval) :=
  map (fun km => (fst km, member_value pt s (snd km))) (as_dict_members pt).
(** What numpy shows of a record: the fields by name. *)
Definition numpy_record (pt : ptype) (s : pstruct) : list (string * pyval) :=
  map (fun mn => (snd mn, member_value pt s (fst mn))) (numpy_fields pt).

(** [push_back(py::tuple)] ([tuple] is [true]) and [push_back(py::list)], SegmentedArrayPair.h lines 352-401 and 414-455: the
    container afterwards, and the result or the exception.  The conversion works in the slot itself; [junk] is what the
    memory of a slot that was never written holds. *)
Definition push_values (pt : ptype) (tuple : bool) (junk : pstruct) (sp : sap pstruct) (p : list pyval) : sap pstruct * res (Z * Z) :=
  let o := out_sa sp in
  let a := arr sp o in
  let a1 :=
    if (fao a =? slen sp)%Z then
      let a1 := SArr (segs a) (fnf a) (fao a) (u32 (cur a + 1)) (nseg a) in
      if (cur a1 <? nseg a1)%Z
      then SArr (segs a1) (u32 (fnf a1 + 1)) 0 (cur a1) (nseg a1)
      else c_add_segment (slen sp) a1
    else a in
  match (let! v := c_get (segs a1) (fnf a1) in c_get v (fao a1)) with
  | Raise e => (sp, Raise e)
  | Ok slot =>
    let '(s, failure) := run_assigns (default junk slot) p (if tuple then set_from_tuple pt else set_from_list pt) in
    match c_store a1 (fnf a1) (fao a1) (Some s) with
    | Raise e => (sp, Raise e)
    | Ok a3 =>
      match failure with
      | Some e => (set_arr sp o a3, Raise e)
      | None =>
        (set_arr sp o (SArr (segs a3) (fnf a3) (u32 (fao a3 + 1)) (cur a3) (nseg a3)),
         Ok (fao a3, (fnf a3 * slen sp + fao a3)%Z))
      end
    end
  end.

(** [get_as_tuple(i)], [get_as_list(i)] and [get_item(i)], lines 497-540; an unwritten slot shows the junk in it. *)
Definition get_as_tuple (pt : ptype) (junk : pstruct) (sp : sap pstruct) (i : Z) : res (list pyval) :=
  let! s := c_get_item sp i in Ok (as_tuple pt (default junk s)).
Definition get_as_list (pt : ptype) (junk : pstruct) (sp : sap pstruct) (i : Z) : res (list pyval) :=
  let! s := c_get_item sp i in Ok (as_list pt (default junk s)).
Definition get_as_dict (pt : ptype) (junk : pstruct) (sp : sap pstruct) (i : Z) : res (list (string * pyval)) :=
  let! s := c_get_item sp i in Ok (as_dict pt (default junk s)).
End Values.
Arguments pyval : clear implicits.
Arguments pstruct : clear implicits.
