(** Whole schemas: the validator built from a core schema, by composing the validators
    of the other files (src/validators/mod.rs:540-641 [build_validator], 657-842
    [CombinedValidator]).  Schemas are given as the configuration that the build
    functions read from the schema dict; definitions may refer to each other. *)
From Coq Require Import List NArith ZArith Bool.
From Verif Require Import Base Float64 IntParse Numbers BytesCodec Values VState LookupKey Collections Child Inputs Scalars Literal Wrappers Union TaggedUnion Tuple ModelFields TypedDict Assign Arguments Classes.
Import ListNotations.
Open Scope nat_scope.

(** What the model takes from outside: CPython, Rust's standard library, user classes;
    [e_wd_fuel] bounds the recursion of with_default into itself (see Wrappers.v). *)
Record env := {
  e_parse_f64 : str -> option f64; e_py_str : pyval -> str; e_f64_to_string : f64 -> str; e_max_digits : N;
  e_to_lower : str -> str; e_to_upper : str -> str; e_repr : pyval -> str; e_getattr : pyval -> str -> attr_res;
  e_subclass : N -> N -> bool; e_wd_fuel : nat }.

Record finfo := { fi_name : str; fi_keys : key_collection; fi_frozen : bool; fi_required : bool }.
Record finfos := {
  fo_extra : extra_behavior; fo_strict : bool; fo_from_attributes : bool; fo_loc_by_alias : bool;
  fo_by_alias : option bool; fo_by_name : option bool }.
Record pinfo := { pi_name : str; pi_mode : pmode; pi_keys : key_collection }.
Record pinfos := { po_unpacked : bool; po_extra : extra_behavior; po_loc_by_alias : bool; po_by_alias : option bool; po_by_name : option bool }.
Record dinfo := { dn_name : str; dn_keys : key_collection; dn_kw_only : bool; dn_init : bool; dn_init_only : bool }.
Record dinfos := { do_collect : bool; do_extra : extra_behavior; do_loc_by_alias : bool; do_by_alias : option bool; do_by_name : option bool }.
Record tinfo := { tn_strict : bool; tn_variadic : option nat; tn_min : option nat; tn_max : option nat; tn_fail_fast : bool }.

Inductive schema :=
| SAny | SNone | SBool (strict : bool) | SInt (strict : bool) (c : option int_constraints) | SFloat (strict : bool) (c : float_constraints)
| SStr (c : str_constraints) | SBytes (c : bytes_constraints) | SLiteral (expected : list pyval) | SIsInstance (cls : N)
| SList (c : coll) (item : option schema) | SSet (frozen : bool) (c : coll) (item : schema) | STuple (c : tinfo) (items : list schema)
| SDict (c : coll) (k v : schema)
| SNullable (sc : schema) | SDefault (k : default_kind) (o : on_error) (validate : bool) (sc : schema) | SChain (steps : list schema)
| SJsonOrPython (j p : schema) | SLaxOrStrict (strict : bool) (l st : schema) | SCustomError (t : etype) (sc : schema)
| SBefore (f : pyfun) (own : option str) (sc : schema) | SAfter (f : pyfun) (own : option str) (sc : schema)
| SPlain (f : pyfun) (own : option str) | SWrap (f : pyval -> info -> wprog) (own : option str) (sc : schema)
| SUnion (mode : union_mode) (custom : option etype) (choices : list (schema * str))
| STagged (d : discriminator) (from_attributes : bool) (custom : option etype) (choices : list (pyval * schema))
| SModelFields (c : finfos) (fields : list (finfo * schema)) (extras extras_keys : option schema)
| STypedDict (c : finfos) (fields : list (finfo * schema)) (extras : option schema)
| SArguments (c : pinfos) (params : list (pinfo * schema)) (var_args var_kwargs : option schema)
| SDataclassArgs (c : dinfos) (fields : list (dinfo * schema)) (extras : option schema)
| SModel (c : model_cfg) (sc : schema) | SDataclass (c : dataclass_cfg) (sc : schema)
| SRef (k : nat).

Definition mk_fields (c : finfos) (fs : list field) (ex exk : option validator) : fields_cfg :=
  {| fc_fields := fs; fc_extra := fo_extra c; fc_extras := ex; fc_extras_keys := exk; fc_strict := fo_strict c; fc_from_attributes := fo_from_attributes c;
     fc_loc_by_alias := fo_loc_by_alias c; fc_by_alias := fo_by_alias c; fc_by_name := fo_by_name c |}.
Definition mk_field (i : finfo) (v : cv) : field :=
  {| f_name := fi_name i; f_keys := fi_keys i; f_cv := v; f_frozen := fi_frozen i; f_required := fi_required i |}.
Definition mk_param (i : pinfo) (v : cv) : param := {| pa_name := pi_name i; pa_mode := pi_mode i; pa_keys := pi_keys i; pa_cv := v |}.
Definition mk_args (c : pinfos) (ps : list param) (va vk : option validator) : args_cfg :=
  {| ac_params := ps; ac_var_args := va; ac_unpacked := po_unpacked c; ac_var_kwargs := vk; ac_extra := po_extra c;
     ac_loc_by_alias := po_loc_by_alias c; ac_by_alias := po_by_alias c; ac_by_name := po_by_name c |}.
Definition mk_dcf (i : dinfo) (v : cv) : dc_field :=
  {| df_name := dn_name i; df_keys := dn_keys i; df_cv := v; df_kw_only := dn_kw_only i; df_init := dn_init i; df_init_only := dn_init_only i |}.
Definition mk_dc (c : dinfos) (fs : list dc_field) (ex : option validator) : dc_cfg :=
  {| dc_fields := fs; dc_collect_init_only := do_collect c; dc_extra := do_extra c; dc_extras := ex;
     dc_loc_by_alias := do_loc_by_alias c; dc_by_alias := do_by_alias c; dc_by_name := do_by_name c |}.
Definition mk_tuple (c : tinfo) (vs : list cv) : tuple_cfg :=
  {| tu_strict := tn_strict c; tu_validators := vs; tu_variadic := tn_variadic c; tu_min := tn_min c; tu_max := tn_max c; tu_fail_fast := tn_fail_fast c |}.

(** dict.rs:72-92: the entries of the validated mapping. *)
Definition dict_entries (repr : pyval -> str) (strict : bool) (i : input) : vres (list entry) :=
  match validate_dict repr strict i with VOk md => md_iter md | VErr e => VErr e end.

Section Eval.
Variable E : env.
(** What a definition-ref stands for. *)
Variable ref : nat -> cv.

Fixpoint eval (sc : schema) : cv :=
  match sc with
  | SAny => no_default any_validate
  | SNone => no_default none_validate
  | SBool st => no_default (bool_validate st)
  | SInt st c => no_default (int_validate (e_max_digits E) st c)
  | SFloat st c => no_default (float_validate (e_parse_f64 E) st c)
  | SStr c => no_default (str_validate (e_py_str E) (e_f64_to_string E) (e_to_lower E) (e_to_upper E) c)
  | SBytes c => no_default (bytes_validate c)
  | SLiteral l => no_default (literal_validate (e_py_str E) (e_f64_to_string E) (e_max_digits E) l)
  | SIsInstance cls => no_default (is_instance_validate (e_subclass E) cls)
  | SList c item => no_default (list_validate c (option_map (fun sc => cv_validate (eval sc)) item) validate_list)
  | SSet frozen c item => no_default (set_validate frozen c (cv_validate (eval item)) (if frozen then validate_frozenset else validate_set))
  | STuple c items => no_default (tuple_validate (mk_tuple c (map eval items)) validate_tuple)
  | SDict c k v => no_default (dict_validate c (cv_validate (eval k)) (cv_validate (eval v)) (dict_entries (e_repr E)))
  | SNullable sc => no_default (nullable (cv_validate (eval sc)))
  | SDefault k o vd sc =>
      wd_cv (e_wd_fuel E) {| wd_default_kind := k; wd_on_error := o; wd_inner := cv_validate (eval sc); wd_validate_default := vd |}
  | SChain steps => no_default (chain_validate (map (fun sc => cv_validate (eval sc)) steps))
  | SJsonOrPython j p => no_default (json_or_python (cv_validate (eval j)) (cv_validate (eval p)))
  | SLaxOrStrict st l t => no_default (lax_or_strict st (cv_validate (eval l)) (cv_validate (eval t)))
  | SCustomError t sc => no_default (custom_error t (cv_validate (eval sc)))
  | SBefore f own sc => no_default (function_before f own (cv_validate (eval sc)))
  | SAfter f own sc => no_default (function_after f own (cv_validate (eval sc)))
  | SPlain f own => no_default (function_plain f own)
  | SWrap f own sc => no_default (function_wrap f own (cv_validate (eval sc)))
  | SUnion mode custom choices =>
      let cs := map (fun cl => {| ch_validator := cv_validate (eval (fst cl)); ch_label := snd cl |}) choices in
      no_default (match mode with UnionSmart => validate_smart custom cs | UnionLeftToRight => validate_left_to_right custom cs end)
  | STagged d fa custom choices =>
      no_default (tagged_union_validate (e_repr E) (e_getattr E) (e_py_str E) (e_f64_to_string E) (e_max_digits E) d fa custom
                    (map (fun tc => (fst tc, cv_validate (eval (snd tc)))) choices))
  | SModelFields c fields ex exk =>
      no_default (model_fields_validate
        (mk_fields c (map (fun fi => mk_field (fst fi) (eval (snd fi))) fields) (option_map (fun sc => cv_validate (eval sc)) ex) (option_map (fun sc => cv_validate (eval sc)) exk))
        (validate_model_fields (e_repr E) (e_getattr E)))
  | STypedDict c fields ex =>
      no_default (typed_dict_validate
        (mk_fields c (map (fun fi => mk_field (fst fi) (eval (snd fi))) fields) (option_map (fun sc => cv_validate (eval sc)) ex) None)
        (validate_dict (e_repr E)))
  | SArguments c params va vk =>
      no_default (arguments_validate
        (mk_args c (map (fun p => mk_param (fst p) (eval (snd p))) params) (option_map (fun sc => cv_validate (eval sc)) va) (option_map (fun sc => cv_validate (eval sc)) vk))
        (validate_args (e_repr E)))
  | SDataclassArgs c fields ex =>
      no_default (dataclass_args_validate
        (mk_dc c (map (fun p => mk_dcf (fst p) (eval (snd p))) fields) (option_map (fun sc => cv_validate (eval sc)) ex))
        (validate_dataclass_args (e_repr E)))
  | SModel c sc => no_default (model_validate (e_subclass E) c (cv_validate (eval sc)))
  | SDataclass c sc => no_default (dataclass_validate (e_subclass E) c (cv_validate (eval sc)))
  | SRef k => ref k
  end.
End Eval.

(** recursion_guard.rs:78-82. *)
Definition guard_limit : nat := 255.

(** definitions.rs:69-103 and recursion_guard.rs:24-60.  [depth] is the number of guards
    held.  The guard also refuses an object that is already being validated with the
    same definition; objects are trees here, so that happens only when a definition
    leads back to itself without looking into the object, where the model runs out of
    [fuel] instead (and where the code, for JSON input, overflows the stack: a Panic).
    Simplification: the counter that stays too high after a refusal (RecGuard.v) is
    not represented. *)
Fixpoint refs (E : env) (defs : nat -> option schema) (fuel depth : nat) (k : nat) : cv :=
  match fuel with
  | 0 => {| cv_validate := fun _ s => (VErr Panic, s); cv_default := fun _ s => (VErr Panic, s) |}
  | S fuel' =>
      match defs k with
      | None => {| cv_validate := fun _ s => (VErr Panic, s); cv_default := fun _ s => (VErr Panic, s) |}
      | Some sc =>
          {| cv_validate := fun i s =>
               let s := set_partial PartialOff s in
               match i with
               | IPy _ =>
                   if Nat.leb guard_limit depth then (val_err ERecursionLoop i, s)
                   else cv_validate (eval E (refs E defs fuel' (S depth)) sc) i s
               | _ => cv_validate (eval E (refs E defs fuel' depth) sc) i s
               end;
             cv_default := cv_default (eval E (refs E defs fuel' depth) sc) |}
      end
  end.

(** A whole schema with its definitions. *)
Definition run (E : env) (defs : nat -> option schema) (fuel : nat) (sc : schema) : validator :=
  cv_validate (eval E (refs E defs fuel 0) sc).

(** ** Calls *)

(** validators/mod.rs:123-330 and 696-760: the options of a call.  Every call starts
    with a fresh state (and a fresh recursion guard). *)
Record call_opts := { op_strict : option bool; op_from_attributes : option bool; op_by_alias : option bool; op_by_name : option bool; op_partial : partial_mode }.
Definition call_state (t : input_type) (o : call_opts) : state :=
  {| st_exactness := None; st_fields_set := None; st_partial := op_partial o;
     st_extra := {| x_input_type := t; x_strict := op_strict o; x_from_attributes := op_from_attributes o;
                    x_by_alias := op_by_alias o; x_by_name := op_by_name o; x_data := None; x_field_name := None |} |}.
