(** Model of [SchemaValidator::py_new] and [build_validator]: from a core schema and a
    config to the validator (src/validators/mod.rs:126-160 and 534-641, src/build_tools.rs,
    the [build] functions in src/validators).  The result is a [schema] of Interp.v with
    its definitions. *)
From Coq Require Import List NArith ZArith Bool.
From Verif Require Import Base Float64 IntParse Numbers BytesCodec Values VState LookupKey Collections Child Inputs Scalars Literal Wrappers Union TaggedUnion Tuple ModelFields TypedDict Assign Arguments Classes Interp.
From Verif Require Import SerOf.
Import ListNotations.
Open Scope nat_scope.

(** The keys of a config that validators read; [None] for a missing key.  A value of a
    wrong type (a TypeError) is not represented.  [g_extra] may be present and None
    (build_tools.rs:183-206). *)
Record config := {
  g_strict : option bool; g_extra : option (option str); g_from_attributes : option bool; g_total : option bool;
  g_str_min : option nat; g_str_max : option nat; g_str_strip : option bool; g_str_lower : option bool; g_str_upper : option bool;
  g_coerce : option bool; g_regex : option str; g_inf_nan : option bool; g_validate_default : option bool; g_revalidate : option str;
  g_loc_by_alias : option bool; g_by_alias : option bool; g_by_name : option bool; g_bytes : option str }.

(** The keys of schemas.  Bounds of numbers are numbers already; aliases are as in
    LookupKey.v. *)
Record coll_keys := { lk_strict : option bool; lk_min : option nat; lk_max : option nat; lk_fail_fast : option bool }.
Inductive pattern := PatText (t : str) | PatCompiled (m : str -> bool + pyexc).
Record str_keys := {
  sk_strict : option bool; sk_coerce : option bool; sk_strip : option bool; sk_min : option nat; sk_max : option nat;
  sk_pattern : option pattern; sk_regex : option str; sk_lower : option bool; sk_upper : option bool }.
Record float_keys := {
  fk_strict : option bool; fk_inf_nan : option bool; fk_multiple_of : option f64; fk_le : option f64; fk_lt : option f64; fk_ge : option f64; fk_gt : option f64 }.
Record field_keys := { ek_name : str; ek_alias : option alias_item; ek_frozen : option bool; ek_required : option bool }.
Record fields_keys := { rk_strict : option bool; rk_extra : option (option str); rk_from_attributes : option bool; rk_total : option bool }.
Record param_keys := { qk_name : str; qk_mode : option pmode; qk_alias : option alias_item }.
Record args_keys := { ak_mode : option str; ak_extra : option (option str); ak_by_alias : option bool; ak_by_name : option bool }.
Record dcf_keys := { ck_name : str; ck_alias : option alias_item; ck_kw_only : option bool; ck_init : option bool; ck_init_only : option bool }.
Record dca_keys := { cak_extra : option (option str); cak_collect : option bool }.
Record model_keys := {
  mk_cls : N; mk_origin : option N; mk_revalidate : option str; mk_root : option bool;
  mk_custom_init : option (pydict -> pyval + pyexc); mk_post_init : option (pyval -> pyval + pyexc) }.
Record dataclass_keys := {
  dk_cls : N; dk_origin : option N; dk_revalidate : option str; dk_strict : option bool; dk_names : list str; dk_slots : option bool;
  dk_post_init : option (pyval -> list pyval -> pyval + pyexc) }.
(** with_default.rs:34-48: the keys 'default' and 'default_factory'. *)
Record default_keys := {
  hk_default : option pyval; hk_factory : option (option pyval -> pyval + pyexc); hk_takes_data : option bool; hk_on_error : option on_error; hk_validate : option bool }.

(** A core schema.  The user's functions are given the config as [info.config]
    (function.rs:66-72, 251-254, 320-323).  References are numbers. *)
Inductive core :=
| KAny | KNone | KBool (strict : option bool) | KInt (strict : option bool) (c : int_constraints) | KFloat (k : float_keys)
| KStr (k : str_keys) | KBytes (strict : option bool) (mn mx : option nat) | KLiteral (expected : list pyval) | KIsInstance (cls : N)
| KList (k : coll_keys) (item : option core) | KSet (frozen : bool) (k : coll_keys) (item : option core)
| KTuple (k : coll_keys) (variadic : option nat) (items : list core) | KDict (k : coll_keys) (kc vc : option core)
| KNullable (c : core) | KDefault (k : default_keys) (c : core) | KChain (steps : list core)
| KJsonOrPython (j p : core) | KLaxOrStrict (strict : option bool) (l st : core) | KCustomError (t : option etype) (c : core)
| KBefore (f : option config -> pyfun) (own : option str) (c : core) | KAfter (f : option config -> pyfun) (own : option str) (c : core)
| KPlain (f : option config -> pyfun) (own : option str) | KWrap (f : option config -> pyval -> info -> wprog) (own : option str) (c : core)
| KUnion (mode : option str) (collapse : option bool) (custom : option etype) (choices : list (core * option str))
| KTagged (d : discriminator) (from_attributes : option bool) (custom : option etype) (choices : list (pyval * core))
| KModelFields (k : fields_keys) (fields : list (field_keys * core)) (extras extras_keys : option core)
| KTypedDict (cfg : option config) (k : fields_keys) (fields : list (field_keys * core)) (extras : option core)
| KArguments (k : args_keys) (params : list (param_keys * core)) (var_args var_kwargs : option core)
| KDataclassArgs (k : dca_keys) (fields : list (dcf_keys * core)) (extras : option core)
| KModel (cfg : option config) (k : model_keys) (c : core) | KDataclass (cfg : option config) (k : dataclass_keys) (c : core)
| KDefinitions (defs : list (nat * core)) (c : core) | KRef (k : nat).

(** ** Building: the definitions so far and the references asked for (definitions.rs) *)
Record known := { kn_defs : list (nat * schema); kn_refs : list nat }.
Definition B (A : Type) := known -> built (A * known).
Definition ret {A} (a : A) : B A := fun k => Built (a, k).
Definition fail {A} : B A := fun _ => SchemaError.
Definition panic {A} : B A := fun _ => Panics.
Definition bind {A C} (m : B A) (f : A -> B C) : B C := fun k => bbind (m k) (fun r => f (fst r) (snd r)).
Definition mapB {A C} (f : A -> B C) : list A -> B (list C) :=
  fix go l := match l with [] => ret [] | a :: l => bind (f a) (fun c => bind (go l) (fun r => ret (c :: r))) end.
Definition optB {A C} (f : A -> B C) (o : option A) : B (option C) :=
  match o with Some a => bind (f a) (fun c => ret (Some c)) | None => ret None end.
Fixpoint find_def (k : nat) (l : list (nat * schema)) : option schema :=
  match l with [] => None | (j, s) :: l => if k =? j then Some s else find_def k l end.
(** definitions.rs:142-185 [get_definition], [add_definition]. *)
Definition ask (k : nat) : B unit := fun n => Built (tt, {| kn_defs := kn_defs n; kn_refs := k :: kn_refs n |}).
Definition define (k : nat) (s : schema) : B unit := fun n =>
  match find_def k (kn_defs n) with
  | Some _ => SchemaError
  | None => Built (tt, {| kn_defs := kn_defs n ++ [(k, s)]; kn_refs := kn_refs n |})
  end.

(** ** Settings *)
Definition get {A} (g : option config) (f : config -> option A) : option A := match g with Some g => f g | None => None end.
(** build_tools.rs:13-45 [schema_or_config], [is_strict]. *)
Definition setting {A} (own : option A) (g : option config) (f : config -> option A) : option A := or_else own (get g f).
Definition is_strict (own : option bool) (g : option config) : bool := unwrap_or (setting own g g_strict) false.
(** build_tools.rs:183-208 [from_schema_or_config]; a key that is present with None counts
    as present. *)
Definition extra_of (own : option (option str)) (g : option config) (default : extra_behavior) : B extra_behavior :=
  match setting own g g_extra with
  | Some (Some w) =>
      if str_eqb w (lit "allow") then ret ExtraAllow else if str_eqb w (lit "ignore") then ret ExtraIgnore
      else if str_eqb w (lit "forbid") then ret ExtraForbid else fail
  | _ => ret default
  end.
(** model.rs:33-42. *)
Definition revalidate_of (own : option str) (g : option config) : B revalidate :=
  match setting own g g_revalidate with
  | None => ret RNever
  | Some w =>
      if str_eqb w (lit "always") then ret RAlways else if str_eqb w (lit "never") then ret RNever
      else if str_eqb w (lit "subclass-instances") then ret RSubclassInstances else fail
  end.
(** validators/config.rs:29-37: in the config only. *)
Definition bytes_of (g : option config) : B bytes_mode :=
  match get g g_bytes with
  | None => ret MUtf8
  | Some w => if str_eqb w (lit "utf8") then ret MUtf8 else if str_eqb w (lit "base64") then ret MBase64 else if str_eqb w (lit "hex") then ret MHex else fail
  end.
(** union.rs:29-39. *)
Definition mode_of (w : option str) : B union_mode :=
  match w with
  | None => ret UnionSmart
  | Some w => if str_eqb w (lit "smart") then ret UnionSmart else if str_eqb w (lit "left_to_right") then ret UnionLeftToRight else fail
  end.
(** arguments.rs:26-39, 144-148: whether kwargs are an unpacked typed dict. *)
Definition unpacked_of (w : option str) : B bool :=
  match w with
  | None => ret false
  | Some w => if str_eqb w (lit "uniform") then ret false else if str_eqb w (lit "unpacked-typed-dict") then ret true else fail
  end.
Definition keys_of (alias : option alias_item) (name : str) : B key_collection :=
  match collection_new alias name with BOk k => ret k | BErr => fail end.
Definition coll_of (g : option config) (k : coll_keys) : coll :=
  {| co_strict := is_strict (lk_strict k) g; co_min := lk_min k; co_max := lk_max k; co_fail_fast := unwrap_or (lk_fail_fast k) false |}.
Definition unbounded (c : int_constraints) : bool :=
  match ic_multiple_of c, ic_le c, ic_lt c, ic_ge c, ic_gt c with None, None, None, None, None => true | _, _, _, _, _ => false end.
(** with_default.rs:34-48. *)
Definition default_of (k : default_keys) : B default_kind :=
  match hk_default k, hk_factory k with
  | Some _, Some _ => fail
  | Some v, None => ret (DValue v)
  | None, Some f => ret (DFactory f (unwrap_or (hk_takes_data k) false))
  | None, None => ret DNone
  end.
(** [has_default], [omit_on_error] of a with-default validator (with_default.rs:209-217). *)
Definition has_default (s : schema) : bool := match s with SDefault DNone _ _ _ => false | SDefault _ _ _ _ => true | _ => false end.
Definition omits (s : schema) : bool := match s with SDefault _ OnOmit _ _ => true | _ => false end.
(** chain.rs:57-70 [build_validator_steps]. *)
Definition steps_of (s : schema) : list schema := match s with SChain l => l | _ => [s] end.
Definition is_kw_only (m : pmode) : bool := match m with KwOnly => true | _ => false end.

Section Core.
(** [get_name] of a validator, the label of a union member without one; and the regular
    expression engines: a text and whether Python's engine is asked for. *)
Variable name_of : schema -> str.
Variable compile : bool -> str -> option (str -> bool + pyexc).

(** string.rs:156-176 and 240-275 [Pattern::compile]. *)
Definition pattern_of (k : str_keys) (g : option config) : B (option (str -> bool + pyexc)) :=
  match sk_pattern k with
  | None => ret None
  | Some (PatCompiled m) => ret (Some m)
  | Some (PatText t) =>
      let engine := unwrap_or (setting (sk_regex k) g g_regex) (lit "rust-regex") in
      if str_eqb engine (lit "rust-regex") then match compile false t with Some m => ret (Some m) | None => fail end
      else if str_eqb engine (lit "python-re") then match compile true t with Some m => ret (Some m) | None => fail end
      else fail
  end.
(** model_fields.rs:61-70, typed_dict.rs:64-68, dataclass.rs:61-65: a schema for extra
    items needs 'allow'. *)
Definition extras_B (f : core -> B schema) (e : extra_behavior) (o : option core) : B (option schema) :=
  match o, e with
  | Some c, ExtraAllow => bind (f c) (fun s => ret (Some s))
  | Some _, _ => fail
  | None, _ => ret None
  end.
(** model_fields.rs:78-104. *)
Definition model_field_B (f : core -> B schema) (p : field_keys * core) : B (finfo * schema) :=
  bind (f (snd p)) (fun s => bind (keys_of (ek_alias (fst p)) (ek_name (fst p))) (fun ks =>
    ret ({| fi_name := ek_name (fst p); fi_keys := ks; fi_frozen := unwrap_or (ek_frozen (fst p)) false; fi_required := true |}, s))).
(** typed_dict.rs:82-134. *)
Definition typed_dict_field_B (f : core -> B schema) (total : bool) (p : field_keys * core) : B (finfo * schema) :=
  bind (f (snd p)) (fun s =>
    let required := unwrap_or (ek_required (fst p)) total in
    if match ek_required (fst p) with Some true => has_default s | _ => false end then fail
    else if required && omits s then fail
    else bind (keys_of (ek_alias (fst p)) (ek_name (fst p))) (fun ks =>
      ret ({| fi_name := ek_name (fst p); fi_keys := ks; fi_frozen := false; fi_required := required |}, s))).
(** arguments.rs:78-142; [d]: a parameter with a default came before, [kw]: a keyword-only
    one did. *)
Definition params_B (f : core -> B schema) : bool -> bool -> list (param_keys * core) -> B (list (pinfo * schema)) :=
  fix go (d kw : bool) (l : list (param_keys * core)) :=
    match l with
    | [] => ret []
    | p :: l =>
        let mode := unwrap_or (qk_mode (fst p)) PosOrKw in
        let kw := kw || is_kw_only mode in
        bind (f (snd p)) (fun s =>
          if omits s then fail
          else if d && negb (has_default s) && negb kw then fail
          else bind (keys_of (qk_alias (fst p)) (qk_name (fst p))) (fun ks =>
            bind (go (d || has_default s) kw l) (fun r =>
              ret (({| pi_name := qk_name (fst p); pi_mode := mode; pi_keys := ks |}, s) :: r))))
    end.
(** dataclass.rs:69-112. *)
Definition dataclass_field_B (f : core -> B schema) (p : dcf_keys * core) : B (dinfo * schema) :=
  bind (f (snd p)) (fun s =>
    if omits s then fail
    else bind (keys_of (ck_alias (fst p)) (ck_name (fst p))) (fun ks =>
      ret ({| dn_name := ck_name (fst p); dn_keys := ks; dn_kw_only := unwrap_or (ck_kw_only (fst p)) true; dn_init := unwrap_or (ck_init (fst p)) true;
              dn_init_only := unwrap_or (ck_init_only (fst p)) false |}, s))).

(** mod.rs:556-641 [build_validator] and the [build] functions it leads to (any.rs:18,
    none.rs:15, bool.rs:18, int.rs:39-56 and 91-101, float.rs:19-40 and 177-196,
    string.rs:23-38 and 156-206, bytes.rs:24-41 and 116-125, literal.rs:255-275,
    is_instance.rs:22-45, list.rs:24-39 and 100-116, set.rs:23-50, tuple.rs:28-58,
    dict.rs:30-58, nullable.rs:21-30, with_default.rs:101-150, chain.rs:22-70,
    json_or_python.rs:22-43, lax_or_strict.rs:25-50, custom_error.rs:70-84,
    function.rs:51-80, 242-262 and 307-333, union.rs:52-103 and 296-341,
    model_fields.rs:48-115, typed_dict.rs:46-142, arguments.rs:67-173,
    dataclass.rs:52-131 and 467-512, model.rs:70-103, definitions.rs:21-65).
    Simplifications: no validator built earlier is reused (see Prebuilt.v); that 'cls' of
    is-instance works with isinstance, and the names of validators, are left out;
    [custom_error_type] is an error type already, and [None] where it is missing. *)
Fixpoint build (g : option config) (c : core) {struct c} : B schema :=
  match c with
  | KAny => ret SAny
  | KNone => ret SNone
  | KBool st => ret (SBool (is_strict st g))
  | KInt st c => ret (SInt (is_strict st g) (if unbounded c then None else Some c))
  | KFloat k =>
      ret (SFloat (is_strict (fk_strict k) g)
        {| fc_allow_inf_nan := unwrap_or (setting (fk_inf_nan k) g g_inf_nan) true;
           fc_multiple_of := fk_multiple_of k; fc_le := fk_le k; fc_lt := fk_lt k; fc_ge := fk_ge k; fc_gt := fk_gt k |})
  | KStr k =>
      bind (pattern_of k g) (fun p =>
        ret (SStr {| sc_strict := is_strict (sk_strict k) g; sc_coerce_numbers := unwrap_or (setting (sk_coerce k) g g_coerce) false;
                     sc_strip := unwrap_or (setting (sk_strip k) g g_str_strip) false; sc_min := setting (sk_min k) g g_str_min; sc_max := setting (sk_max k) g g_str_max;
                     sc_pattern := p; sc_to_lower := unwrap_or (setting (sk_lower k) g g_str_lower) false; sc_to_upper := unwrap_or (setting (sk_upper k) g g_str_upper) false |}))
  | KBytes st mn mx => bind (bytes_of g) (fun m => ret (SBytes {| bc_strict := is_strict st g; bc_mode := m; bc_min := mn; bc_max := mx |}))
  | KLiteral l => match l with [] => fail | _ => ret (SLiteral l) end
  | KIsInstance cls => ret (SIsInstance cls)
  | KList k item => bind (optB (build g) item) (fun it => ret (SList (coll_of g k) (match it with Some SAny => None | _ => it end)))
  | KSet frozen k item => bind (optB (build g) item) (fun it => ret (SSet frozen (coll_of g k) (unwrap_or it SAny)))
  | KTuple k variadic items =>
      bind (mapB (build g) items) (fun l =>
        if match variadic with Some i => length l <=? i | None => false end then panic
        else ret (STuple {| tn_strict := is_strict (lk_strict k) g; tn_variadic := variadic; tn_min := lk_min k; tn_max := lk_max k; tn_fail_fast := unwrap_or (lk_fail_fast k) false |} l))
  | KDict k kc vc =>
      bind (optB (build g) kc) (fun a => bind (optB (build g) vc) (fun b => ret (SDict (coll_of g k) (unwrap_or a SAny) (unwrap_or b SAny))))
  | KNullable c => bind (build g c) (fun s => ret (SNullable s))
  | KDefault k c =>
      bind (default_of k) (fun d =>
        let o := unwrap_or (hk_on_error k) OnRaise in
        if negb (wd_build_ok d o) then fail
        else bind (build g c) (fun s => ret (SDefault d o (unwrap_or (setting (hk_validate k) g g_validate_default) false) s)))
  | KChain steps =>
      bind (mapB (build g) steps) (fun l =>
        match flat_map steps_of l with
        | [] => fail
        | [s] => ret s
        | l => ret (SChain l)
        end)
  | KJsonOrPython j p => bind (build g j) (fun a => bind (build g p) (fun b => ret (SJsonOrPython a b)))
  | KLaxOrStrict st l t => bind (build g l) (fun a => bind (build g t) (fun b => ret (SLaxOrStrict (is_strict st g) a b)))
  | KCustomError t c => match t with None => panic | Some t => bind (build g c) (fun s => ret (SCustomError t s)) end
  | KBefore f own c => bind (build g c) (fun s => ret (SBefore (f g) own s))
  | KAfter f own c => bind (build g c) (fun s => ret (SAfter (f g) own s))
  | KPlain f own => ret (SPlain (f g) own)
  | KWrap f own c => bind (build g c) (fun s => ret (SWrap (f g) own s))
  | KUnion mode collapse custom choices =>
      bind (mapB (fun p => bind (build g (fst p)) (fun s => ret (s, unwrap_or (snd p) (name_of s)))) choices) (fun l =>
        bind (mode_of mode) (fun m =>
          match l with
          | [] => fail
          | [p] => if unwrap_or collapse true then ret (fst p) else ret (SUnion m custom l)
          | _ => ret (SUnion m custom l)
          end))
  | KTagged d fa custom choices =>
      bind (mapB (fun p => bind (build g (snd p)) (fun s => ret (fst p, s))) choices) (fun l =>
        ret (STagged d (unwrap_or (setting fa g g_from_attributes) true) custom l))
  | KModelFields k fields ex exk =>
      bind (extra_of (rk_extra k) g ExtraIgnore) (fun e =>
      bind (extras_B (build g) e ex) (fun ex => bind (extras_B (build g) e exk) (fun exk =>
      bind (mapB (model_field_B (build g)) fields) (fun fs =>
        ret (SModelFields {| fo_extra := e; fo_strict := is_strict (rk_strict k) g; fo_from_attributes := unwrap_or (setting (rk_from_attributes k) g g_from_attributes) false;
               fo_loc_by_alias := unwrap_or (get g g_loc_by_alias) true; fo_by_alias := get g g_by_alias; fo_by_name := get g g_by_name |} fs ex exk)))))
  | KTypedDict g k fields ex =>
      bind (extra_of (rk_extra k) g ExtraIgnore) (fun e =>
      bind (extras_B (build g) e ex) (fun ex =>
      bind (mapB (typed_dict_field_B (build g) (unwrap_or (setting (rk_total k) g g_total) true)) fields) (fun fs =>
        ret (STypedDict {| fo_extra := e; fo_strict := is_strict (rk_strict k) g; fo_from_attributes := false;
               fo_loc_by_alias := unwrap_or (get g g_loc_by_alias) true; fo_by_alias := get g g_by_alias; fo_by_name := get g g_by_name |} fs ex))))
  | KArguments k params va vk =>
      bind (params_B (build g) false false params) (fun ps =>
      bind (unpacked_of (ak_mode k)) (fun u =>
      bind (optB (build g) vk) (fun vk =>
        if u && match vk with None => true | _ => false end then fail
        else bind (optB (build g) va) (fun va =>
        bind (extra_of (ak_extra k) g ExtraForbid) (fun e =>
          ret (SArguments {| po_unpacked := u; po_extra := e; po_loc_by_alias := unwrap_or (get g g_loc_by_alias) true;
                 po_by_alias := setting (ak_by_alias k) g g_by_alias; po_by_name := setting (ak_by_name k) g g_by_name |} ps va vk))))))
  | KDataclassArgs k fields ex =>
      bind (extra_of (cak_extra k) g ExtraIgnore) (fun e =>
      bind (extras_B (build g) e ex) (fun ex =>
      bind (mapB (dataclass_field_B (build g)) fields) (fun fs =>
        ret (SDataclassArgs {| do_collect := unwrap_or (cak_collect k) false; do_extra := e; do_loc_by_alias := unwrap_or (get g g_loc_by_alias) true;
               do_by_alias := get g g_by_alias; do_by_name := get g g_by_name |} fs ex))))
  | KModel g k c =>
      bind (build g c) (fun s => bind (revalidate_of (mk_revalidate k) g) (fun r =>
        ret (SModel {| mo_cls := mk_cls k; mo_origin := mk_origin k; mo_revalidate := r; mo_root := unwrap_or (mk_root k) false;
                       mo_custom_init := mk_custom_init k; mo_post_init := mk_post_init k |} s)))
  | KDataclass g k c =>
      bind (build g c) (fun s => bind (revalidate_of (dk_revalidate k) g) (fun r =>
        ret (SDataclass {| da_cls := dk_cls k; da_origin := dk_origin k; da_revalidate := r; da_strict := is_strict (dk_strict k) g;
                           da_names := dk_names k; da_slots := unwrap_or (dk_slots k) false; da_post_init := dk_post_init k |} s)))
  | KDefinitions defs c => bind (mapB (fun p => bind (build g (snd p)) (define (fst p))) defs) (fun _ => build g c)
  | KRef k => bind (ask k) (fun _ => ret (SRef k))
  end.

(** mod.rs:126-160 [py_new]; definitions.rs:187-200 [finish]: every reference asked for
    must have been defined. *)
Definition schema_validator (g : option config) (c : core) : built (schema * (nat -> option schema)) :=
  bbind (build g c {| kn_defs := []; kn_refs := [] |}) (fun r =>
    if forallb (fun k => match find_def k (kn_defs (snd r)) with Some _ => true | None => false end) (kn_refs (snd r))
    then Built (fst r, fun k => find_def k (kn_defs (snd r))) else SchemaError).
End Core.
