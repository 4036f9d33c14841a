(** Model of the C++ container class [dnt::SegmentedArrayPair]
    (/repo/cpp/SegmentedArrayPair.h).

    The record type is the one of [SapModel]; only the functions differ.
    Simplifications that hold for the whole file:
    - The counters [nseg], [first_not_full_segment], [first_available_offset] and
      [current_segment] are [unsigned] (lines 70-90), so every update of them wraps
      modulo 2^32.  [segment_length] is [py::ssize_t] (64 bits, signed), so the
      products and comparisons with it are done in 64-bit signed arithmetic; the
      model computes them in [Z], that is, it assumes that the number of slots
      stays below 2^63.
    - [std::vector::operator[]] and the raw pointer into a segment are unchecked:
      an index outside the vector or the segment is [UndefinedBehaviour].
    - [assert] is active: no makefile in /repo/cpp defines NDEBUG.  A failing
      assertion is [AssertionError] (the process aborts).
    - The C++ loop functions return the whole segment and a count where Python
      returns a slice; the model returns the first [count] slots.  [return_data_ptr]
      (capsule or array) makes no difference to the model.
    - An [in_out] string other than "in"/"out" fails an assertion (lines 230, 720);
      the model has a [bool]. *)
From Verif Require Export SapModel MoverModel.

(** Conversion to [unsigned]. *)
Definition u32 (z : Z) : Z := z mod 4294967296.

Section Cpp.
Context {A : Type}.

(** [v[i]] on a [std::vector] or through a raw pointer to an array of that length. *)
Definition c_get {X} (l : list X) (i : Z) : res X :=
  if 0 <=? i then
    match l !! Z.to_nat i with Some x => Ok x | None => Raise UndefinedBehaviour end
  else Raise UndefinedBehaviour.

(** [v[i] = x] *)
Definition c_set {X} (l : list X) (i : Z) (x : X) : res (list X) :=
  if (0 <=? i) && (i <? Z.of_nat (length l)) then Ok (<[Z.to_nat i := x]> l)
  else Raise UndefinedBehaviour.

(** [seg_list_pair[theSA][seg]] then [pseg[off] = item], lines 314-333. *)
Definition c_store (a : sarr A) (seg off : Z) (x : option A) : res (sarr A) :=
  let! v := c_get (segs a) seg in
  let! v' := c_set v off x in
  let! ss := c_set (segs a) seg v' in
  Ok (SArr ss (fnf a) (fao a) (cur a) (nseg a)).

(** Constructor, lines 140-162. *)
Definition c_init (L : Z) : sap A :=
  let a := SArr [fresh_seg L] 0 0 0 1 in
  Sap L a a true false.

(** [add_segment], lines 119-129. *)
Definition c_add_segment (L : Z) (a : sarr A) : sarr A :=
  SArr (segs a ++ [fresh_seg L]) (u32 (fnf a + 1)) 0 (cur a) (u32 (nseg a + 1)).

(** [push_back]: overload for a 1-element array, lines 283-341 ([checked] is [true]:
    it has the assertion of line 310), and overloads for a tuple, lines 352-401, and
    for a list, lines 414-455 ([checked] is [false]: no assertion). *)
Definition c_push_back (checked : bool) (s : sap A) (item : A) : res (sap A * (Z * Z)) :=
  let o := out_sa s in
  let a := arr s o in
  let! a1 :=
    (if fao a =? slen s then
       let a1 := SArr (segs a) (fnf a) (fao a) (u32 (cur a + 1)) (nseg a) in
       let a2 :=
         if cur a1 <? nseg a1
         then SArr (segs a1) (u32 (fnf a1 + 1)) 0 (cur a1) (nseg a1)
         else c_add_segment (slen s) a1 in
       if negb checked || (fnf a2 =? cur a2) then Ok a2 else Raise AssertionError
     else Ok a) in
  let! a3 := c_store a1 (fnf a1) (fao a1) (Some item) in
  let full := fnf a3 * slen s + fao a3 in
  let a4 := SArr (segs a3) (fnf a3) (u32 (fao a3 + 1)) (cur a3) (nseg a3) in
  Ok (set_arr s o a4, (fao a3, full)).

(** [get_item], [get_as_tuple], [get_as_list], lines 497-540: C++ division truncates. *)
Definition c_get_item (s : sap A) (i : Z) : res (option A) :=
  let! v := c_get (segs (arr s (out_sa s))) (Z.quot i (slen s)) in
  c_get v (Z.rem i (slen s)).

(** Writing an item: [get_segment_and_offset], lines 484-493, then [seg[offset] = x] in
    Python (numpy checks the offset and accepts negative ones). *)
Definition c_set_item (s : sap A) (i : Z) (x : A) : res (sap A) :=
  let o := out_sa s in
  let a := arr s o in
  let! v := c_get (segs a) (Z.quot i (slen s)) in
  let! v' := py_set v (Z.rem i (slen s)) (Some x) in
  let! ss := c_set (segs a) (Z.quot i (slen s)) v' in
  Ok (set_arr s o (SArr ss (fnf a) (fao a) (cur a) (nseg a))).

(** First [last] slots of [seg_list_pair[theSA][seg]]. *)
Definition c_slice (a : sarr A) (seg last : Z) : res (list (option A)) :=
  let! v := c_get (segs a) seg in
  Ok (take (Z.to_nat last) v).

(** [init_out_loop], lines 555-596. *)
Definition c_init_out_loop (s : sap A) : res (sap A * seg_result) :=
  let o := out_sa s in
  let a := arr s o in
  let a1 := SArr (segs a) (fnf a) (fao a) 0 (nseg a) in
  let s1 := set_arr s o a1 in
  if fnf a1 =? 0 then
    if fao a1 =? 0 then Ok (s1, (0, None))
    else let! v := c_slice a1 0 (fao a1) in Ok (s1, (fao a1, Some v))
  else let! v := c_slice a1 0 (slen s) in Ok (s1, (slen s, Some v)).

(** [init_inout_loop], lines 617-698 ([swapPair] is always true, line 599). *)
Definition c_init_inout_loop (s : sap A) : res (sap A * (Z * bool)) :=
  let i := negb (in_sa s) in
  let o := negb (out_sa s) in
  let s1 := set_arr s false (SArr (segs (arr s false)) (fnf (arr s false)) (fao (arr s false)) 0 (nseg (arr s false))) in
  let s2 := set_arr s1 true (SArr (segs (arr s1 true)) (fnf (arr s1 true)) (fao (arr s1 true)) 0 (nseg (arr s1 true))) in
  let ao := arr s2 o in
  let s3 := set_arr s2 o (SArr (segs ao) 0 0 (cur ao) (nseg ao)) in
  let ai := arr s3 i in
  if (fnf ai =? 0) && (fao ai =? 0) then Ok (s3, (0, false))
  else
    let last := if fnf ai =? 0 then fao ai else slen s in
    let s4 := Sap (slen s3) (arr0 s3) (arr1 s3) i o in
    let! _ := c_get (segs (arr s4 i)) 0 in
    let! _ := c_get (segs (arr s4 o)) 0 in
    Ok (s4, (last, true)).

(** [get_next_segment], lines 710-761. *)
Definition c_get_next_segment (s : sap A) (is_in : bool) : res (sap A * seg_result) :=
  let w := which s is_in in
  let a := arr s w in
  let a1 := SArr (segs a) (fnf a) (fao a) (u32 (cur a + 1)) (nseg a) in
  let s1 := set_arr s w a1 in
  let segIndex := cur a1 in
  if segIndex >? fnf a1 then Ok (s1, (0, None))
  else if fnf a1 =? segIndex then
    if fao a1 =? 0 then Ok (s1, (0, None))
    else let! v := c_slice a1 segIndex (fao a1) in Ok (s1, (fao a1, Some v))
  else let! v := c_slice a1 segIndex (slen s) in Ok (s1, (slen s, Some v)).

(** [get_next_out_segment], lines 781-821. *)
Definition c_get_next_out_segment (s : sap A) : res (sap A * Z) :=
  let o := out_sa s in
  let a := arr s o in
  let segIndex := u32 (cur a + 1) in
  let a1 := SArr (segs a) (fnf a) (fao a) segIndex (nseg a) in
  let a2 :=
    if segIndex <? nseg a1 then
      if u32 (fnf a1 + 1) <? nseg a1 then SArr (segs a1) (u32 (fnf a1 + 1)) 0 (cur a1) (nseg a1)
      else a1
    else c_add_segment (slen s) a1 in
  if fnf a2 =? segIndex then
    let! _ := c_get (segs a2) segIndex in
    Ok (set_arr s o a2, segIndex)
  else Raise AssertionError.

(** [get_number_of_segments], lines 190-198. *)
Definition c_get_number_of_segments (s : sap A) : Z * Z :=
  (nseg (arr s (in_sa s)), nseg (arr s (out_sa s))).

(** [get_number_of_items], lines 204-210. *)
Definition c_get_number_of_items (s : sap A) : Z :=
  let a := arr s (out_sa s) in fnf a * slen s + fao a.

(** [set_number_of_items], lines 221-242: [/] and [%] truncate towards zero, and
    the results are converted to [unsigned]. *)
Definition c_set_number_of_items (s : sap A) (is_in : bool) (n : Z) : sap A :=
  let w := which s is_in in
  let a := arr s w in
  set_arr s w (SArr (segs a) (u32 (Z.quot (n - 1) (slen s))) (u32 (Z.rem (n - 1) (slen s) + 1))
     (cur a) (nseg a)).

(** [get_capacity], lines 247-254. *)
Definition c_get_capacity (s : sap A) : Z * Z :=
  (nseg (arr s (in_sa s)) * slen s, nseg (arr s (out_sa s)) * slen s).

End Cpp.

(** The calls made by the C++ movers
    (cpp/advance_charged_species_in_E_field_cartesian_x.cpp and the other
    cpp/advance_*.cpp files make the same ones). *)
Definition cpp_ops (A : Type) : sap_ops A :=
  SapOps c_init_inout_loop
         (fun s => let! (s1, (np, _)) := c_get_next_segment s true in Ok (s1, np))
         c_get_next_out_segment
         (fun s n => c_set_number_of_items s false n).
