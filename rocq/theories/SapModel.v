(** Model of the Python container class [SegmentedArrayPair_C]
    (/repo/SegmentedArrayPair_Module.py).

    Simplifications that hold for the whole file:
    - Record fields are not modelled here: an item is a value of an arbitrary
      type [A].  A slot is [option A]; [None] is a slot of [np.empty] that has
      never been written.
    - The attribute [npmax] (lines 64, 72, 236) is written and never read, so it
      is left out.  [nseg] is kept although it always equals the list length.
    - The pair index 0/1 is a [bool] ([false] is 0); [(x+1) % 2] is [negb].
    - The [InOut] string is a [bool] ([true] is "in"); the code has no branch for
      any other string.
    - After an exception the object is not used any more, so [Raise] carries no
      state. *)
From Verif Require Export Base.

Section Model.
Context {A : Type}.

(** One of the two segmented arrays.
    Models the per-array attributes set in [__init__], lines 51-72:
    [seg_list_pair[i]], [first_not_full_segment[i]], [first_available_offset[i]],
    [current_segment[i]], [nseg[i]]. *)
Record sarr := SArr {
  segs : list (list (option A));
  fnf : Z;
  fao : Z;
  cur : Z;
  nseg : Z
}.

(** The pair.  Models [segment_length], the two arrays, [in_segmented_array] and
    [out_segmented_array] (lines 47, 51, 77, 78). *)
Record sap := Sap {
  slen : Z;
  arr0 : sarr;
  arr1 : sarr;
  in_sa : bool;
  out_sa : bool
}.

(** [self.xxx[i]] for i in (0, 1). *)
Definition arr (s : sap) (b : bool) : sarr := if b then arr1 s else arr0 s.
Definition set_arr (s : sap) (b : bool) (a : sarr) : sap :=
  if b then Sap (slen s) (arr0 s) a (in_sa s) (out_sa s)
  else Sap (slen s) a (arr1 s) (in_sa s) (out_sa s).

(** Which array an [InOut] argument selects; lines 362-365, 480-483, 559-562. *)
Definition which (s : sap) (is_in : bool) : bool := if is_in then in_sa s else out_sa s.

(** [np_m.empty(self.segment_length, dtype=item_dtype)], lines 67 and 232. *)
Definition fresh_seg (L : Z) : list (option A) := replicate (Z.to_nat L) None.

(** [__init__], lines 43-78. *)
Definition sap_init (L : Z) : sap :=
  let a := SArr [fresh_seg L] 0 0 0 1 in
  Sap L a a true false.

(** [add_segment(theSA)], lines 224-245. *)
Definition add_segment (L : Z) (a : sarr) : sarr :=
  SArr (segs a ++ [fresh_seg L]) (fnf a + 1) 0 (cur a) (nseg a + 1).

(** [vec = seg_list[seg]; vec[off] = item], lines 131-132 and 219. *)
Definition store (a : sarr) (seg off : Z) (x : option A) : res sarr :=
  let! v := py_get (segs a) seg in
  let! v' := py_set v off x in
  let! ss := py_set (segs a) seg v' in
  Ok (SArr ss (fnf a) (fao a) (cur a) (nseg a)).

(** [seg_list[seg][off]], lines 178 and 202. *)
Definition fetch (a : sarr) (seg off : Z) : res (option A) :=
  let! v := py_get (segs a) seg in
  py_get v off.

(** [push_back(item_input)], lines 85-140: result (offset, full index).  The
    unwrapping of a 1-element array (lines 126-129) is not modelled. *)
Definition push_back (s : sap) (item : A) : res (sap * (Z * Z)) :=
  let o := out_sa s in
  let a := arr s o in
  let! a1 :=
    (if fao a =? slen s then
       let a1 := SArr (segs a) (fnf a) (fao a) (cur a + 1) (nseg a) in
       let a2 :=
         if cur a1 <? nseg a1
         then SArr (segs a1) (fnf a1 + 1) 0 (cur a1) (nseg a1)
         else add_segment (slen s) a1 in
       if fnf a2 =? cur a2 then Ok a2 else Raise AssertionError
     else Ok a) in
  let! a3 := store a1 (fnf a1) (fao a1) (Some item) in
  let full := fnf a3 * slen s + fao a3 in
  let a4 := SArr (segs a3) (fnf a3) (fao a3 + 1) (cur a3) (nseg a3) in
  Ok (set_arr s o a4, (fao a4 - 1, full)).

(** [get_segment_and_offset(i)] followed by [seg[offset]], lines 145-161;
    [get_item(i)], lines 164-178; [__getitem__(i)], lines 182-202.  The three
    compute the same expression.  Python's [divmod] is [Z.div], [Z.modulo]. *)
Definition get_item (s : sap) (i : Z) : res (option A) :=
  fetch (arr s (out_sa s)) (i / slen s) (i mod slen s).

(** [__setitem__(i, value)], lines 205-221. *)
Definition set_item (s : sap) (i : Z) (x : A) : res sap :=
  let o := out_sa s in
  let! a := store (arr s o) (i / slen s) (i mod slen s) (Some x) in
  Ok (set_arr s o a).

(** [seg_list[seg][0:last]]; [last] is never negative (see [SapProofs]). *)
Definition slice (a : sarr) (seg last : Z) : res (list (option A)) :=
  let! v := py_get (segs a) seg in
  Ok (take (Z.to_nat last) v).

(** Result (number of items, segment slice or None) of the loop functions. *)
Definition seg_result : Type := Z * option (list (option A)).

(** [init_out_loop()], lines 248-283. *)
Definition init_out_loop (s : sap) : res (sap * seg_result) :=
  let o := out_sa s in
  let a := arr s o in
  let a1 := SArr (segs a) (fnf a) (fao a) 0 (nseg a) in
  let s1 := set_arr s o a1 in
  if fnf a1 =? 0 then
    if fao a1 =? 0 then Ok (s1, (0, None))
    else let! v := slice a1 0 (fao a1) in Ok (s1, (fao a1, Some v))
  else let! v := slice a1 0 (slen s) in Ok (s1, (slen s, Some v)).

(** [init_inout_loop()], lines 287-346.  The result is the number of items in
    the first "in" segment, or [None] when the loop has nothing to do (line
    337: the swap is not stored then).  The returned references are always
    segment 0 of the new "in" and "out" arrays (lines 345-346), so the model
    returns no reference; evaluating them cannot fail when segment 0 exists,
    which [slice] and [py_get] check. *)
Definition init_inout_loop (s : sap) : res (sap * (Z * bool)) :=
  let i := negb (in_sa s) in
  let o := negb (out_sa s) in
  let s1 := set_arr s false (SArr (segs (arr s false)) (fnf (arr s false)) (fao (arr s false)) 0 (nseg (arr s false))) in
  let s2 := set_arr s1 true (SArr (segs (arr s1 true)) (fnf (arr s1 true)) (fao (arr s1 true)) 0 (nseg (arr s1 true))) in
  let ao := arr s2 o in
  let s3 := set_arr s2 o (SArr (segs ao) 0 0 (cur ao) (nseg ao)) in
  let ai := arr s3 i in
  if (fnf ai =? 0) && (fao ai =? 0) then Ok (s3, (0, false))
  else
    let last := if fnf ai =? 0 then fao ai else slen s in
    let s4 := Sap (slen s3) (arr0 s3) (arr1 s3) i o in
    let! _ := slice ai 0 last in
    let! _ := py_get (segs (arr s4 o)) 0 in
    Ok (s4, (last, true)).

(** [get_next_segment(InOut)], lines 350-386. *)
Definition get_next_segment (s : sap) (is_in : bool) : res (sap * seg_result) :=
  let w := which s is_in in
  let a := arr s w in
  let a1 := SArr (segs a) (fnf a) (fao a) (cur a + 1) (nseg a) in
  let s1 := set_arr s w a1 in
  let segIndex := cur a1 in
  if segIndex >? fnf a1 then Ok (s1, (0, None))
  else if fnf a1 =? segIndex then
    if fao a1 =? 0 then Ok (s1, (0, None))
    else let! v := slice a1 segIndex (fao a1) in Ok (s1, (fao a1, Some v))
  else let! v := slice a1 segIndex (slen s) in Ok (s1, (slen s, Some v)).

(** [get_next_out_segment()], lines 390-427.  The returned reference is the
    segment number [segIndex]. *)
Definition get_next_out_segment (s : sap) : res (sap * Z) :=
  let o := out_sa s in
  let a := arr s o in
  let segIndex := cur a + 1 in
  let a1 := SArr (segs a) (fnf a) (fao a) segIndex (nseg a) in
  let a2 :=
    if segIndex <? nseg a1 then
      if fnf a1 + 1 <? nseg a1 then SArr (segs a1) (fnf a1 + 1) 0 (cur a1) (nseg a1)
      else a1
    else add_segment (slen s) a1 in
  if fnf a2 =? segIndex then
    let! _ := py_get (segs a2) segIndex in
    Ok (set_arr s o a2, segIndex)
  else Raise AssertionError.

(** [get_current_out_segment()], lines 431-442, followed by reading offset
    [off] of that segment. *)
Definition current_out_item (s : sap) (off : Z) : res (option A) :=
  let a := arr s (out_sa s) in
  fetch a (cur a) off.

(** [get_number_of_segments()], lines 446-455. *)
Definition get_number_of_segments (s : sap) : Z * Z :=
  (nseg (arr s (in_sa s)), nseg (arr s (out_sa s))).

(** [get_number_of_items()], lines 458-468. *)
Definition get_number_of_items (s : sap) : Z :=
  let a := arr s (out_sa s) in fnf a * slen s + fao a.

(** [set_number_of_items(InOut, n_items)], lines 471-496. *)
Definition set_number_of_items (s : sap) (is_in : bool) (n : Z) : sap :=
  let w := which s is_in in
  let a := arr s w in
  set_arr s w (SArr (segs a) ((n - 1) / slen s) ((n - 1) mod slen s + 1) (cur a) (nseg a)).

(** [get_capacity()], lines 499-507. *)
Definition get_capacity (s : sap) : Z * Z :=
  (nseg (arr s (in_sa s)) * slen s, nseg (arr s (out_sa s)) * slen s).

(** [get_full_index(indx, InOut)], lines 548-566. *)
Definition get_full_index (s : sap) (indx : Z) (is_in : bool) : Z :=
  cur (arr s (which s is_in)) * slen s + indx.

(** [get_full_indices(i_in, i_out)], lines 570-588. *)
Definition get_full_indices (s : sap) (i_in i_out : Z) : Z * Z :=
  (cur (arr s (in_sa s)) * slen s + i_in, cur (arr s (out_sa s)) * slen s + i_out).

End Model.
Arguments sarr A : clear implicits.
Arguments sap A : clear implicits.
