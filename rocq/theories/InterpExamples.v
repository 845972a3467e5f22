(** Sample schemas for the examples about whole schemas. *)
From Coq Require Import List NArith ZArith Bool.
From Verif Require Import Base Float64 IntParse Numbers BytesCodec Values VState LookupKey Collections Child Inputs Scalars Literal Wrappers Union TaggedUnion Tuple ModelFields TypedDict Assign Arguments Classes Interp InterpSpec.
Import ListNotations.
Open Scope nat_scope.

Definition ex_env : env :=
  {| e_parse_f64 := fun _ => None; e_py_str := fun _ => lit "?"; e_f64_to_string := fun _ => lit "?"; e_max_digits := 4300;
     e_to_lower := fun s => s; e_to_upper := fun s => s; e_repr := fun _ => lit "?";
     e_getattr := fun v k => match v with PObj _ a => match assoc k a with Some x => AVal x | None => AMissing end | _ => AMissing end;
     e_subclass := N.eqb; e_wd_fuel := 3 |}.
Definition ex_opts : call_opts := {| op_strict := None; op_from_attributes := None; op_by_alias := None; op_by_name := None; op_partial := PartialOff |}.
Definition strict_opts : call_opts := {| op_strict := Some true; op_from_attributes := None; op_by_alias := None; op_by_name := None; op_partial := PartialOff |}.

Definition xkeys (name : str) : key_collection :=
  {| kc_by_name := Simple (path_from_str name); kc_by_alias := None; kc_by_alias_then_name := None |}.
Definition xfield (name : str) (required : bool) (sc : schema) : finfo * schema :=
  ({| fi_name := name; fi_keys := xkeys name; fi_frozen := false; fi_required := required |}, sc).
Definition xinfos (e : extra_behavior) : finfos :=
  {| fo_extra := e; fo_strict := false; fo_from_attributes := false; fo_loc_by_alias := true; fo_by_alias := None; fo_by_name := None |}.
Definition xcoll : coll := {| co_strict := false; co_min := None; co_max := None; co_fail_fast := false |}.
Definition xstr : schema := SStr {| sc_strict := false; sc_coerce_numbers := false; sc_strip := false; sc_min := None; sc_max := None; sc_pattern := None; sc_to_lower := false; sc_to_upper := false |}.
Definition xint : schema := SInt false None.

(** A tree of integers or strings: [{"value": int | str, "children": [...]}], with
    children defaulting to the empty list. *)
Definition tree : schema :=
  STypedDict (xinfos ExtraForbid)
    [xfield (lit "value") true (SUnion UnionSmart None [(xint, lit "int"); (xstr, lit "str")]);
     xfield (lit "children") false (SDefault (DValue (PList [])) OnRaise false (SList xcoll (Some (SRef 0))))] None.
Definition tree_defs (k : nat) : option schema := match k with 0 => Some tree | _ => None end.
Definition leaf (v : pyval) : pyval := PDict [(PStr (lit "value"), v)].
Definition node (v : pyval) (cs : list pyval) : pyval := PDict [(PStr (lit "value"), v); (PStr (lit "children"), PList cs)].
