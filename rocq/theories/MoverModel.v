(** Model of the loop shared by the particle movers: the storage side of
    [advance_charged_species_in_E_field], [advance_neutral_species] and
    [advance_charged_species_in_uniform_fields] in /repo/Particle_Module.py and of
    their C++ versions in /repo/cpp.

    What is done to one particle is a parameter, so that the same loop can be
    used with any tracking model, any boundary callbacks and any bookkeeping. *)
From Verif Require Export SapModel.

Section Mover.
Context {A C : Type}.

(** The container calls made by a mover.  The Python and the C++ movers make the
    same calls on their own container class. *)
Record sap_ops := SapOps {
  op_init_inout : sap A -> res (sap A * (Z * bool));
  op_next_in : sap A -> res (sap A * Z);
  op_next_out : sap A -> res (sap A * Z);
  op_set_out_count : sap A -> Z -> sap A
}.

(** What a mover does with one particle.
    - [adv c i p]: particle [p], read from full "in" index [i], is advanced and
      tracked (Particle_Module.py lines 1573-1796, 1963-2091); [c] is whatever
      bookkeeping the step reads and writes; the result is the record left in
      the "out" slot.
    - [deleted p]: [p['bitflags'] & DELETE_FLAG != 0] (lines 1804, 2096).
    - [on_keep c ch i j p]: what is done for a surviving particle when it ends at full
      "out" index [j]; [ch] is the flag [indexChange] (lines 1810-1814, 2102-2106).
    - [on_drop c i p q]: what is done for a deleted particle; [p] is the "in" record and
      [q] the "out" record (lines 1824-1827, 2116-2119). *)
Record hooks := Hooks {
  adv : C -> Z -> A -> res (A * C);
  deleted : A -> bool;
  on_keep : C -> bool -> Z -> Z -> A -> res C;
  on_drop : C -> Z -> A -> A -> res C
}.

(** Local variables of a mover: the container, the reference [psegOut] (which
    array, which segment), [ipOut], [particleCount], [indexChange] (lines
    1475-1480, 1935-1942), and the bookkeeping. *)
Record mstate := MState {
  ms_sap : sap A;
  ms_oarr : bool;
  ms_oseg : Z;
  ms_ipOut : Z;
  ms_count : Z;
  ms_change : bool;
  ms_ctx : C
}.

Context (ops : sap_ops) (hk : hooks).

(** Body of [for ipIn in range(npSeg)] for the in-segment [iseg] of array [iarr]:
    Particle_Module.py lines 1569-1832 (charged) and 1957-2125 (neutral).
    The copy of line 1574/1963 is followed by in-place changes of the same slot,
    so the model stores the final record once.  The bookkeeping functions find the
    particle through [get_current_out_segment()] (lines 2351-2352, 2463-2464) and the
    indices through [get_full_indices] (line 2307): the model raises
    [AliasMismatch] if that segment is not [psegOut]. *)
Definition mover_particle (iarr : bool) (iseg : Z) (m : mstate) (ipIn : Z) : res mstate :=
  let L := slen (ms_sap m) in
  let! m1 :=
    (if ms_ipOut m =? L then
       let! (s1, seg) := op_next_out ops (ms_sap m) in
       Ok (MState s1 (out_sa s1) seg 0 (ms_count m) (ms_change m) (ms_ctx m))
     else Ok m) in
  let s := ms_sap m1 in
  let! slot := fetch (arr s iarr) iseg ipIn in
  match slot with
  | None => Raise Uninitialised
  | Some p =>
    if negb (Bool.eqb (ms_oarr m1) (out_sa s) && (cur (arr s (out_sa s)) =? ms_oseg m1))
    then Raise AliasMismatch else
    let '(fi, fo) := get_full_indices s ipIn (ms_ipOut m1) in
    let! (q, c1) := adv hk (ms_ctx m1) fi p in
    let! a1 := store (arr s (ms_oarr m1)) (ms_oseg m1) (ms_ipOut m1) (Some q) in
    let s1 := set_arr s (ms_oarr m1) a1 in
    let! m2 :=
      (if deleted hk q then
         let! c2 := on_drop hk c1 fi p q in
         Ok (MState s1 (ms_oarr m1) (ms_oseg m1) (ms_ipOut m1) (ms_count m1) true c2)
       else
         let! c2 := on_keep hk c1 (ms_change m1) fi fo q in
         Ok (MState s1 (ms_oarr m1) (ms_oseg m1) (ms_ipOut m1 + 1) (ms_count m1) (ms_change m1) c2)) in
    Ok (if ms_ipOut m2 =? L
        then MState (ms_sap m2) (ms_oarr m2) (ms_oseg m2) (ms_ipOut m2) (ms_count m2 + L) (ms_change m2) (ms_ctx m2)
        else m2)
  end.

(** [for ipIn in range(npSeg)]: [k] iterations starting at [ipIn]. *)
Fixpoint mover_segment (iarr : bool) (iseg : Z) (m : mstate) (ipIn : Z) (k : nat) : res mstate :=
  match k with
  | O => Ok m
  | S k' => let! m1 := mover_particle iarr iseg m ipIn in
            mover_segment iarr iseg m1 (ipIn + 1) k'
  end.

(** [while isinstance(psegIn, np_m.ndarray)]: lines 1484-1837 and 1946-2132.
    The in-segment is the one that the container's cursor designates when it is
    handed out (segment 0 first, then the result of [get_next_segment("in")]). *)
Fixpoint mover_segments (fuel : nat) (m : mstate) (iarr : bool) (iseg npSeg : Z) : res mstate :=
  match fuel with
  | O => Raise OutOfFuel
  | S fuel' =>
    let! m1 := mover_segment iarr iseg m 0 (Z.to_nat npSeg) in
    let! (s2, np2) := op_next_in ops (ms_sap m1) in
    let m2 := MState s2 (ms_oarr m1) (ms_oseg m1) (ms_ipOut m1) (ms_count m1) (ms_change m1) (ms_ctx m1) in
    if np2 =? 0 then Ok m2
    else mover_segments fuel' m2 iarr (cur (arr s2 iarr)) np2
  end.

(** The whole pass: lines 1475-1847 and 1935-2141.  The recursion bound is the
    number of "in" segments plus one. *)
Definition mover (s : sap A) (c : C) : res (sap A * C) :=
  let! (s1, (np, go)) := op_init_inout ops s in
  let m0 := MState s1 (out_sa s1) 0 0 0 false c in
  let! m :=
    (if go then
       mover_segments (Z.to_nat (nseg (arr s1 (in_sa s1)) + 1)) m0 (in_sa s1) 0 np
     else Ok m0) in
  let n := if negb (ms_ipOut m =? slen s) then ms_count m + ms_ipOut m else ms_count m in
  Ok (op_set_out_count ops (ms_sap m) n, ms_ctx m).

(** [if self.get_species_particle_count(sn) == 0: continue], then the mover:
    [advance_charged_particles_in_E_field], lines 1401-1410, and
    [advance_neutral_particles], lines 1865-1873. *)
Definition guarded_mover (s : sap A) (c : C) : res (sap A * C) :=
  if get_number_of_items s =? 0 then Ok (s, c) else mover s c.

(** Body of the particle loop of [advance_charged_species_in_uniform_fields],
    lines 2243-2278: a record that is already flagged is skipped before an out
    slot is claimed, and there is no bookkeeping. *)
Definition uniform_particle (iarr : bool) (iseg : Z) (m : mstate) (ipIn : Z) : res mstate :=
  let L := slen (ms_sap m) in
  let! slot := fetch (arr (ms_sap m) iarr) iseg ipIn in
  match slot with
  | None => Raise Uninitialised
  | Some p =>
    if deleted hk p then Ok m else
    let! m1 :=
      (if ms_ipOut m =? L then
         let! (s1, seg) := op_next_out ops (ms_sap m) in
         Ok (MState s1 (out_sa s1) seg 0 (ms_count m) (ms_change m) (ms_ctx m))
       else Ok m) in
    let s := ms_sap m1 in
    let! (q, c1) := adv hk (ms_ctx m1) 0 p in
    let! a1 := store (arr s (ms_oarr m1)) (ms_oseg m1) (ms_ipOut m1) (Some q) in
    let s1 := set_arr s (ms_oarr m1) a1 in
    let ip := ms_ipOut m1 + 1 in
    Ok (MState s1 (ms_oarr m1) (ms_oseg m1) ip
          (if ip =? L then ms_count m1 + L else ms_count m1) (ms_change m1) c1)
  end.

Fixpoint uniform_segment (iarr : bool) (iseg : Z) (m : mstate) (ipIn : Z) (k : nat) : res mstate :=
  match k with
  | O => Ok m
  | S k' => let! m1 := uniform_particle iarr iseg m ipIn in
            uniform_segment iarr iseg m1 (ipIn + 1) k'
  end.

(** [while isinstance(psegIn, np_m.ndarray)], lines 2235-2282. *)
Fixpoint uniform_segments (fuel : nat) (m : mstate) (iarr : bool) (iseg npSeg : Z) : res mstate :=
  match fuel with
  | O => Raise OutOfFuel
  | S fuel' =>
    let! m1 := uniform_segment iarr iseg m 0 (Z.to_nat npSeg) in
    let! (s2, np2) := op_next_in ops (ms_sap m1) in
    let m2 := MState s2 (ms_oarr m1) (ms_oseg m1) (ms_ipOut m1) (ms_count m1) (ms_change m1) (ms_ctx m1) in
    if np2 =? 0 then Ok m2
    else uniform_segments fuel' m2 iarr (cur (arr s2 iarr)) np2
  end.

(** [advance_charged_species_in_uniform_fields], lines 2226-2286.  [chk] is
    [false] for the Python version, which adds [ipOut] unconditionally (line
    2285), and [true] for the C++ version, which tests [ipOut != segmentLength]
    (cpp/advance_charged_species_in_uniform_fields_cartesian_xyz.cpp lines
    182-186).  The C++ version does not skip flagged records (lines 95-103), which
    is [deleted := fun _ => false]. *)
Definition uniform_mover (chk : bool) (s : sap A) (c : C) : res (sap A * C) :=
  let! (s1, (np, go)) := op_init_inout ops s in
  let m0 := MState s1 (out_sa s1) 0 0 0 false c in
  let! m :=
    (if go then
       uniform_segments (Z.to_nat (nseg (arr s1 (in_sa s1)) + 1)) m0 (in_sa s1) 0 np
     else Ok m0) in
  let n := if chk && (ms_ipOut m =? slen s) then ms_count m else ms_count m + ms_ipOut m in
  Ok (op_set_out_count ops (ms_sap m) n, ms_ctx m).

End Mover.
Arguments sap_ops A : clear implicits.
Arguments hooks A C : clear implicits.
Arguments mstate A C : clear implicits.

(** The calls as made by the Python movers: lines 1475, 1570, 1836, 1847.  The
    loop ends when the segment is [None]; [get_next_segment] returns the number
    0 exactly then. *)
Definition py_ops (A : Type) : sap_ops A :=
  SapOps init_inout_loop
         (fun s => let! (s1, (np, _)) := get_next_segment s true in Ok (s1, np))
         get_next_out_segment
         (fun s n => set_number_of_items s false n).
