(** Model of the [Input] implementations for Python objects, JSON values, JSON keys
    and string mappings: which containers each accepts and what they contain
    (src/input/input_python.rs, input_json.rs, input_string.rs).
    Simplification: user-defined classes that implement the iterator or mapping
    protocols are not values of the model (the collection and field validators are
    modelled over arbitrary item and entry lists, see Collections.v). *)
From Coq Require Import List NArith ZArith Bool.
From Verif Require Import Base Float64 Values VState LookupKey Collections Child.
Import ListNotations.
Open Scope nat_scope.

(** The built-in value of an instance of a built-in type or a subclass of it. *)
Fixpoint strip (v : pyval) : pyval := match v with PSub _ v' => strip v' | _ => v end.
Definition dict_items (v : pyval) : option (list (pyval * pyval)) := match strip v with PDict d => Some d | _ => None end.

Definition last_error {A} (l : list A) : option A := hd_error (rev l).

Section Python.
(** [repr(obj)] as [safe_repr] prints it, and [getattr] (CPython and user code). *)
Variable repr : pyval -> str.
Variable getattr : pyval -> str -> attr_res.

(** tools.rs:131-141 [extract_i64]. *)
Definition extract_i64 (v : pyval) : option Z :=
  match strip v with
  | PInt z => if (Z.leb (- 2 ^ 63) z && Z.ltb z (2 ^ 63))%Z then Some z else None
  | PBool b => Some (if b then 1%Z else 0%Z)
  | _ => None
  end.
(** input_python.rs:59-69: the location item of a mapping key. *)
Definition py_loc (v : pyval) : loc_item :=
  match strip v with
  | PStr s => LStr s
  | _ => match extract_i64 v with Some z => LInt z | None => LStr (repr v) end
  end.

(** input_python.rs:821-880 [GenericPyMapping::Dict]. *)
Definition py_mdict (d : list (pyval * pyval)) : mdict :=
  {| md_get := fun k => VOk (option_map (fun pv => (fst pv, IPy (snd pv))) (py_get_dict_item k d));
     md_iter := VOk (map (fun kv => Entry (IPy (fst kv)) (py_loc (fst kv)) (IPy (snd kv))) d);
     md_is_attr := false;
     md_last_key := option_map (fun kv => py_loc (fst kv)) (last_error d) |}.
(** input_python.rs:821-880 [GenericPyMapping::GetAttr]; its iteration is never asked
    for (model_fields.rs:252). *)
Definition attr_mdict (obj : pyval) (kwargs : option (list (pyval * pyval))) : mdict :=
  {| md_get := fun k => match py_get_attr getattr k obj kwargs with
                        | VOk r => VOk (option_map (fun pv => (fst pv, IPy (snd pv))) r)
                        | VErr e => VErr e
                        end;
     md_iter := VOk []; md_is_attr := true; md_last_key := None |}.

(** input_json.rs:549-575. *)
Definition json_mdict (l : list (str * json)) : mdict :=
  {| md_get := fun k => VOk (option_map (fun pv => (fst pv, IJson (snd pv))) (json_get k l));
     md_iter := VOk (map (fun kv => Entry (IKey (fst kv)) (LStr (fst kv)) (IJson (snd kv))) l);
     md_is_attr := false;
     md_last_key := option_map (fun kv => LStr (fst kv)) (last_error l) |}.

(** input_string.rs:31-55 [new_key], [new_value]. *)
Definition new_key (v : pyval) : vres input :=
  match as_str v with Some _ => VOk (IStrings v) | None => val_err EStringType (IPy v) end.
Definition new_value (v : pyval) : vres input :=
  match as_str v, dict_items v with
  | None, None => val_err EStringType (IPy v)
  | _, _ => VOk (IStrings v)
  end.
(** input_string.rs:57-64. *)
Definition strings_loc (v : pyval) : loc_item := match as_str v with Some s => LStr s | None => LStr (repr v) end.
(** input_string.rs:302-335, lookup_key.rs:171-186 [py_get_string_mapping_item]. *)
Definition strings_mdict (d : list (pyval * pyval)) : mdict :=
  {| md_get := fun k =>
       match py_get_dict_item k d with
       | Some (p, v) => match new_value v with VOk i => VOk (Some (p, i)) | VErr e => VErr e end
       | None => VOk None
       end;
     md_iter := VOk (map (fun kv => match new_key (fst kv), new_value (snd kv) with
                                    | VOk k, VOk v => Entry k (strings_loc (fst kv)) v
                                    | VErr e, _ => BadEntry e
                                    | _, VErr e => BadEntry e
                                    end) d);
     md_is_attr := false;
     md_last_key := match last_error d with
                    | Some kv => match as_str (fst kv) with Some s => Some (LStr s) | None => None end
                    | None => None
                    end |}.

(** input_abstract.rs:115-126 and the implementations cited above: [validate_dict]. *)
Definition validate_dict (strict : bool) (i : input) : vres mdict :=
  match i with
  | IPy v => match dict_items v with Some d => VOk (py_mdict d) | None => val_err EDictType i end
  | IJson (JObj l) => VOk (json_mdict l)
  | IJson _ | IKey _ => val_err EDictType i
  | IStrings v => match as_str v, dict_items v with None, Some d => VOk (strings_mdict d) | _, _ => val_err EDictType i end
  end.
(** input_python.rs:685-699: instances of user classes, including subclasses of
    built-in types. *)
Definition from_attributes_applicable (v : pyval) : bool :=
  match v with PObj _ _ | PSub _ _ => true | _ => false end.
(** input_python.rs:392-424, input_abstract.rs:128-130. *)
Definition validate_model_fields (strict from_attributes : bool) (i : input) : vres mdict :=
  match i with
  | IPy v =>
      if from_attributes then
        match dict_items v with
        | Some d => VOk (py_mdict d)
        | None =>
            if from_attributes_applicable v then VOk (attr_mdict v None)
            else match v with
                 | PTuple [obj; kw] =>
                     match dict_items kw with
                     | Some d => if from_attributes_applicable obj then VOk (attr_mdict obj (Some d)) else val_err EModelAttributesType i
                     | None => val_err EModelAttributesType i
                     end
                 | _ => val_err EModelAttributesType i
                 end
        end
      else validate_dict strict i
  | _ => validate_dict strict i
  end.
End Python.

(** input_python.rs:431-487, 891-917: [validate_list] and friends. *)
Definition py_seq (e : exactness) (is_list : bool) (l : list pyval) : seq :=
  {| sq_items := map (fun v => It (IPy v)) l; sq_len := Some (length l); sq_exactness := e; sq_py_list := is_list |}.
Definition sequence_iterable (v : pyval) : option seq :=
  match strip v with
  | PList l => Some (py_seq Lax true l)
  | PTuple l | PSet l | PFrozenSet l => Some (py_seq Lax false l)
  | _ => None
  end.
Definition lax_sequence (strict : bool) (t : etype) (i : input) (v : pyval) : vres seq :=
  if strict then val_err t i
  else match sequence_iterable v with Some sq => VOk sq | None => val_err t i end.
(** input_json.rs:219-258: arrays; exact only for lists. *)
Definition json_seq (e : exactness) (l : list json) : seq :=
  {| sq_items := map (fun v => It (IJson v)) l; sq_len := Some (length l); sq_exactness := e; sq_py_list := false |}.

Definition validate_list (strict : bool) (i : input) : vres seq :=
  match i with
  | IPy v => match strip v with PList l => VOk (py_seq Exact true l) | _ => lax_sequence strict EListType i v end
  | IJson (JArr l) => VOk (json_seq Exact l)
  | _ => val_err EListType i
  end.
Definition validate_tuple (strict : bool) (i : input) : vres seq :=
  match i with
  | IPy v => match strip v with PTuple l => VOk (py_seq Exact false l) | _ => lax_sequence strict ETupleType i v end
  | IJson (JArr l) => VOk (json_seq Strict l)
  | _ => val_err ETupleType i
  end.
Definition validate_set (strict : bool) (i : input) : vres seq :=
  match i with
  | IPy v => match strip v with PSet l => VOk (py_seq Exact false l) | _ => lax_sequence strict ESetType i v end
  | IJson (JArr l) => VOk (json_seq Strict l)
  | _ => val_err ESetType i
  end.
Definition validate_frozenset (strict : bool) (i : input) : vres seq :=
  match i with
  | IPy v => match strip v with PFrozenSet l => VOk (py_seq Exact false l) | _ => lax_sequence strict EFrozenSetType i v end
  | IJson (JArr l) => VOk (json_seq Strict l)
  | IKey _ => val_err ESetType i
  | _ => val_err EFrozenSetType i
  end.
