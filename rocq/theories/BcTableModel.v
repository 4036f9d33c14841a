(** Model of the table of boundary-condition callbacks: [ParticleMeshBoundaryConditions_C] (/repo/Particle_Module.py) and
    [ParticleMeshBoundaryConditions] (/repo/cpp/ParticleMeshBoundaryConditions.h). *)
From stdpp Require Import strings.
From Coq Require Import String Ascii.
From Verif Require Export Base.
Local Open Scope string_scope.
Local Open Scope list_scope.
Local Infix "^^" := String.append (at level 60, right associativity).

(** ** Python dictionaries and [std::map] *)

(** A Python dictionary: its items in the order of insertion.  Writing an existing key keeps its place. *)
Fixpoint dict_set {K V} `{EqDecision K} (d : list (K * V)) (k : K) (v : V) : list (K * V) :=
  match d with
  | [] => [(k, v)]
  | (k', v') :: r => if decide (k' = k) then (k, v) :: r else (k', v') :: dict_set r k v
  end.
(** [d.get(k)] *)
Fixpoint dict_get {K V} `{EqDecision K} (d : list (K * V)) (k : K) : option V :=
  match d with
  | [] => None
  | (k', v) :: r => if decide (k' = k) then Some v else dict_get r k
  end.
(** [dict(items)] and dictionary comprehensions: a later item replaces an earlier one with the same key. *)
Definition dict_of {K V} `{EqDecision K} (items : list (K * V)) : list (K * V) :=
  fold_left (fun d kv => dict_set d (fst kv) (snd kv)) items [].

(** A [std::map]: its items in increasing order of the keys ([lt] is the order of the keys). *)
Fixpoint map_set {K V} `{EqDecision K} (lt : K -> K -> bool) (m : list (K * V)) (k : K) (v : V) : list (K * V) :=
  match m with
  | [] => [(k, v)]
  | (k', v') :: r => if decide (k' = k) then (k, v) :: r
                     else if lt k k' then (k, v) :: (k', v') :: r else (k', v') :: map_set lt r k v
  end.
(** A map made of items that are inserted one after the other. *)
Definition map_of {K V} `{EqDecision K} (lt : K -> K -> bool) (items : list (K * V)) : list (K * V) :=
  fold_left (fun m kv => map_set lt m (fst kv) (snd kv)) items [].
(** [std::less<std::string>]: lexicographic in the character codes. *)
Definition str_lt (s t : string) : bool := match String.compare s t with Lt => true | _ => false end.

(** ** The callbacks *)
Section Table.
Context {F : Type}.
(** The user's functions by name: attributes of the [UserParticleBoundaryFunctions] object (Python), [bc_function_map]
    (C++).  [None] is an absent name; an attribute whose value is Python's None is not represented. *)
Context (user : string -> option F).

(** The three names: Particle_Module.py lines 3326, 3340, 3349; ParticleMeshBoundaryConditions.h lines 126, 148, 164. *)
Definition bc_name : string := "default_bc".
Definition bc_name_at (b : string) : string := "default_bc_at_" ^^ b.
Definition bc_name_for (b sp : string) : string := "bc_at_" ^^ b ^^ "_for_" ^^ sp.

(** One line of the inner loop of [__init__], lines 3346-3356: the callback for boundary name [b] and species [sp], given
    the default [dflt] of the boundary. *)
Definition pick (dflt : option F) (b sp : string) : option F :=
  match user (bc_name_for b sp) with Some f => Some f | None => dflt end.
(** The default of a boundary, lines 3340-3344. *)
Definition pick_default (glob : option F) (b : string) : option F :=
  match user (bc_name_at b) with Some f => Some f | None => glob end.

(** The table: [bc_function_dict[tag][species]]. *)
Definition table := list (Z * list (string * option F)).

(** [self.bc_function_dict[intTag][sp] = bcFunction], line 3356. *)
Definition table_put (t : table) (tag : Z) (sp : string) (f : option F) : res table :=
  match dict_get t tag with
  | None => Raise KeyError
  | Some row => Ok (dict_set t tag (dict_set row sp f))
  end.
(** The loop over the species, lines 3345-3356. *)
Fixpoint fill_species (dflt : option F) (b : string) (tag : Z) (species : list string) (t : table) : res table :=
  match species with
  | [] => Ok t
  | sp :: r => let! t1 := table_put t tag sp (pick dflt b sp) in fill_species dflt b tag r t1
  end.
(** The loop over the tags, lines 3339-3356; [inv] is [pBDictInv]. *)
Fixpoint fill_tags (glob : option F) (inv : list (Z * string)) (species : list string) (tags : list Z) (t : table) : res table :=
  match tags with
  | [] => Ok t
  | tag :: r =>
    match dict_get inv tag with
    | None => Raise KeyError
    | Some b => let! t1 := fill_species (pick_default glob b) b tag species t in fill_tags glob inv species r t1
    end
  end.
(** [ParticleMeshBoundaryConditions_C.__init__(speciesNames, pmesh_M, userParticleBoundaryFunctions)]: lines 3286-3357.
    [pbd] is [particle_boundary_dict] (boundary name to tag).  The messages are left out. *)
Definition py_table (species : list string) (pbd : list (string * Z)) : res table :=
  let inv := dict_of (map (fun kv => (snd kv, fst kv)) pbd) in
  let tags := map fst inv in
  let t := dict_of (map (fun tag => (tag, dict_of (map (fun sp => (sp, None)) species))) tags) in
  fill_tags (user bc_name) inv species tags t.

(** [bc_function_dict[tag][species]] as the movers use it (lines 1306, 1771, 2066): a missing key is a KeyError; a value
    None is then called, a TypeError. *)
Definition bc_lookup (t : table) (tag : Z) (sp : string) : res F :=
  match dict_get t tag with
  | None => Raise KeyError
  | Some row => match dict_get row sp with
                | None => Raise KeyError
                | Some None => Raise TypeError
                | Some (Some f) => Ok f
                end
  end.

(** ** The C++ class *)

(** The C++ table: [std::map<std::pair<int, std::string>, ...> bc_function_dict], ParticleMeshBoundaryConditions.h line 62;
    its order is not needed. *)
Definition cpp_table := list ((Z * string) * F).
(** Lines 161-189; [SystemExit] is the [std::exit] of line 181. *)
Fixpoint cpp_fill_species (dflt : option F) (b : string) (tag : Z) (species : list string) (t : cpp_table) : res cpp_table :=
  match species with
  | [] => Ok t
  | sp :: r =>
    match pick dflt b sp with
    | None => Raise SystemExit
    | Some f => cpp_fill_species dflt b tag r (dict_set t (tag, sp) f)
    end
  end.
(** Lines 144-190: the items of [pBDictInv] in increasing order of the tags. *)
Fixpoint cpp_fill_tags (glob : option F) (inv : list (Z * string)) (species : list string) (t : cpp_table) : res cpp_table :=
  match inv with
  | [] => Ok t
  | (tag, b) :: r => let! t1 := cpp_fill_species (pick_default glob b) b tag species t in cpp_fill_tags glob r species t1
  end.
(** The constructor, lines 91-192.  [pBDict] is a [std::map], so that its items are in the order of the names. *)
Definition cpp_make (species : list string) (pbd : list (string * Z)) : res cpp_table :=
  let pBDict := map_of str_lt pbd in
  let inv := map_of Z.ltb (map (fun kv => (snd kv, fst kv)) pBDict) in
  cpp_fill_tags (user bc_name) inv species [].
(** [bcFunctionDict[std::make_pair(facValue, species_name)]] as the movers use it (e.g.
    advance_charged_species_in_E_field_cartesian_xy.cpp): a missing key makes a null pointer, which is then called. *)
Definition cpp_lookup (t : cpp_table) (tag : Z) (sp : string) : res F :=
  match dict_get t (tag, sp) with Some f => Ok f | None => Raise UndefinedBehaviour end.
End Table.
