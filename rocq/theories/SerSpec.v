(** What the theorems about serialization say, apart from the model of the code. *)
From Coq Require Import List NArith ZArith Bool.
From Verif Require Import Base Float64 Utf8 Decimal Values BytesCodec Filter SerBase Ser.
Import ListNotations.
Open Scope nat_scope.

(** No two keys of a dict are equal. *)
Definition distinct_keys (d : list (pyval * pyval)) : Prop := ForallOrdPairs (fun a b => py_eq (fst a) (fst b) = false) d.
(** A value made of what the json module writes: None, bool, int, float, str, list and
    dict, none of them a subclass, the keys of every dict satisfying [K]. *)
Inductive jsonable (K : pyval -> Prop) : pyval -> Prop :=
| J_none : jsonable K PNone
| J_bool b : jsonable K (PBool b)
| J_int z : jsonable K (PInt z)
| J_float f : jsonable K (PFloat f)
| J_str s : jsonable K (PStr s)
| J_list l : Forall (jsonable K) l -> jsonable K (PList l)
| J_dict d : distinct_keys d -> Forall (fun kv => K (fst kv) /\ jsonable K (snd kv)) d -> jsonable K (PDict d).
Definition is_str (k : pyval) : Prop := exists s, k = PStr s.
Definition is_str_like (k : pyval) : Prop := exists s, down_str k = Some s.

(** The parts of a serializer: [all_ser q s] says that [q] holds of [s] and of every
    serializer in it. *)
Fixpoint all_ser (q : ser -> bool) (s : ser) : bool :=
  q s &&
  match s with
  | SerNullable s | SerDefault _ s | SerList _ s | SerSet s | SerFrozenSet s | SerModel _ s _ _ | SerDataclass _ s _ | SerJson s =>
      all_ser q s
  | SerTuple _ l _ | SerUnion l | SerTagged _ _ l => forallb (all_ser q) l
  | SerDict _ a b | SerJsonOrPython a b => all_ser q a && all_ser q b
  | SerFields _ fs ex c =>
      forallb (fun kf => match f_ser (snd kf) with Some s => all_ser q s | None => true end) fs
      && match ex with Some s => all_ser q s | None => true end
      && forallb (fun c => all_ser q (cf_ser c)) c
  | SerEnum _ o => match o with Some s => all_ser q s | None => true end
  | SerFunction _ _ _ r fb => all_ser q r && match fb with Some s => all_ser q s | None => true end
  | _ => true
  end.
(** The serializers of the classes and the definitions that a call can reach. *)
Definition env_all (q : ser -> bool) (E : env) : Prop :=
  (forall c sc, ci_ser (e_class E c) = Some sc -> all_ser q (fst sc) = true) /\
  (forall k s, e_def E k = Some s -> all_ser q s = true).
(** No additional fields: every fields serializer is for a fixed set of fields. *)
Definition fixed_fields (s : ser) : bool := match s with SerFields SimpleDict _ _ _ => true | SerFields _ _ _ _ => false | _ => true end.
(** Additional fields only in typed dicts, where the keys are checked to be strings. *)
Definition no_model_extra (s : ser) : bool := match s with SerFields ModelExtra _ _ _ => false | _ => true end.

(** [renders j p]: the JSON value [j] says what the Python value [p] says.  A float is
    written as a number or, when it is not finite, as one of the ser_json_inf_nan modes
    writes it; an object is the dict made of its items in order. *)
Inductive renders : json -> pyval -> Prop :=
| R_null : renders JNull PNone
| R_bool b : renders (JBool b) (PBool b)
| R_int z : renders (JInt z) (PInt z)
| R_float m f : renders (float_js m f) (PFloat f)
| R_str s : renders (JStr s) (PStr s)
| R_arr l l' : renders_all l l' -> renders (JArr l) (PList l')
| R_obj l d : renders_items l d -> renders (JObj l) (PDict d)
with renders_all : list json -> list pyval -> Prop :=
| R_nil : renders_all [] []
| R_cons j p l l' : renders j p -> renders_all l l' -> renders_all (j :: l) (p :: l')
with renders_items : list (str * json) -> list (pyval * pyval) -> Prop :=
| R_empty : renders_items [] []
| R_item l d k j p : renders_items l d -> renders j p -> renders_items (l ++ [(k, j)]) (dict_set (PStr k) p d).
Scheme renders_mut := Induction for renders Sort Prop
with renders_all_mut := Induction for renders_all Sort Prop
with renders_items_mut := Induction for renders_items Sort Prop.
Combined Scheme renders_ind3 from renders_mut, renders_all_mut, renders_items_mut.

(** No float in the value is NaN or infinite. *)
Fixpoint finite_value (p : pyval) : bool :=
  match p with
  | PFloat f => negb (nonfinite f)
  | PList l => forallb finite_value l
  | PDict d => forallb (fun kv => finite_value (snd kv)) d
  | _ => true
  end.

(** The serializers for which the JSON form and the JSON-mode Python form go together:
    no json-or-python, no additional fields, computed fields only in a model (and not with
    exclude_none, [none]); with serialize_as_any ([any]) no typed dict outside a model.
    [inm]: in a model. *)
Section Same.
Variables none any : bool.
Definition no_computed (s : ser) : bool := match s with SerFields _ _ _ (_ :: _) => false | _ => true end.
Fixpoint same_form (inm : bool) (s : ser) : bool :=
  match s with
  | SerNullable s | SerDefault _ s | SerList _ s | SerSet s | SerFrozenSet s | SerJson s => same_form inm s
  | SerModel _ s _ _ => same_form true s
  | SerDataclass _ s _ => no_computed s && same_form true s
  | SerTuple _ l _ | SerUnion l | SerTagged _ _ l => forallb (same_form inm) l
  | SerDict _ a b => same_form inm a && same_form inm b
  | SerFields m fs ex c =>
      match m with SimpleDict => true | _ => false end
      && forallb (fun kf => match f_ser (snd kf) with Some s => same_form inm s | None => true end) fs
      && match ex with Some s => same_form inm s | None => true end
      && (is_nil c || (inm && negb none)) && forallb (fun c => same_form inm (cf_ser c)) c
      && (inm || negb any)
  | SerEnum _ o => match o with Some s => same_form inm s | None => true end
  | SerFunction _ _ _ r fb => same_form inm r && match fb with Some s => same_form inm s | None => true end
  | SerJsonOrPython _ _ => false
  | _ => true
  end.
Definition same_form_env (E : env) : Prop :=
  (forall c sc, ci_ser (e_class E c) = Some sc -> same_form false (fst sc) = true) /\
  (forall k s, e_def E k = Some s -> same_form false s = true).
End Same.

(** A JSON value whose strings are made of Unicode scalar values, as JSON text requires, and
    whose floats satisfy [F]. *)
Inductive textual (F : f64 -> Prop) : json -> Prop :=
| T_null : textual F JNull
| T_bool b : textual F (JBool b)
| T_int z : textual F (JInt z)
| T_float f : F f -> textual F (JFloat f)
| T_str s : scalars s -> textual F (JStr s)
| T_arr l : Forall (textual F) l -> textual F (JArr l)
| T_obj l : Forall (fun kv => scalars (fst kv) /\ textual F (snd kv)) l -> textual F (JObj l).
(** The names of a schema are Rust strings: their characters are scalar values. *)
Definition name_ok (s : str) : bool := forallb scalar s.
Definition names_ok (s : ser) : bool :=
  match s with
  | SerFields _ fs _ c =>
      forallb (fun kf => match f_alias (snd kf) with Some a => name_ok a | None => true end) fs
      && forallb (fun c => name_ok (cf_name c) && name_ok (cf_alias c)) c
  | _ => true
  end.
(** ser_json_inf_nan is not 'constants'. *)
Definition no_constants (m : inf_nan_mode) : bool := match m with IConstants => false | _ => true end.
Definition float_ok (s : ser) : bool := match s with SerFloat m => no_constants m | _ => true end.
Definition env_config (ok : inf_nan_mode -> bool) (E : env) : Prop :=
  forall c s g, ci_ser (e_class E c) = Some (s, g) -> ok (c_inf_nan g) = true.

(** The same call with another warnings mode. *)
Definition with_warnings (w : warnings_mode) (o : options) : options :=
  {| o_by_alias := o_by_alias o; o_exclude_unset := o_exclude_unset o; o_exclude_defaults := o_exclude_defaults o;
     o_exclude_none := o_exclude_none o; o_round_trip := o_round_trip o; o_warnings := w; o_fallback := o_fallback o;
     o_as_any := o_as_any o; o_include := o_include o; o_exclude := o_exclude o |}.
(** The built-in type a schema stands for, if any, and whether a value is an instance of it
    (bool is a subclass of int, and an int is accepted as a float). *)
Definition unexpected (s : ser) (v : pyval) : bool :=
  match s with
  | SerNone => negb (is_py_none v)
  | SerInt => match v with PInt _ | PBool _ | PSub _ (PInt _) => false | _ => true end
  | SerBool => match v with PBool _ => false | _ => true end
  | SerFloat _ => match v with PFloat _ | PInt _ | PBool _ | PSub _ (PFloat _) | PSub _ (PInt _) => false | _ => true end
  | SerStr => match v with PStr _ | PSub _ (PStr _) => false | _ => true end
  | SerBytes _ => match v with PBytes _ | PSub _ (PBytes _) => false | _ => true end
  | SerList _ _ => match v with PList _ | PSub _ (PList _) => false | _ => true end
  | SerSet _ => match v with PSet _ | PSub _ (PSet _) => false | _ => true end
  | SerFrozenSet _ => match v with PFrozenSet _ | PSub _ (PFrozenSet _) => false | _ => true end
  | SerTuple _ _ _ => match v with PTuple _ | PSub _ (PTuple _) => false | _ => true end
  | SerDict _ _ _ => match v with PDict _ | PSub _ (PDict _) => false | _ => true end
  | _ => false
  end.
(** The schemas of the keys of dicts considered here. *)
Definition is_key (s : ser) : bool :=
  match s with SerInt | SerBool | SerFloat _ | SerStr | SerBytes _ => true | _ => false end.
(** A value made as its schema says, of exact built-in types. *)
Fixpoint fits (s : ser) (v : pyval) : bool :=
  match s with
  | SerNone => is_py_none v
  | SerInt => match v with PInt _ => true | _ => false end
  | SerBool => match v with PBool _ => true | _ => false end
  | SerFloat _ => match v with PFloat _ => true | _ => false end
  | SerStr => match v with PStr _ => true | _ => false end
  | SerBytes _ => match v with PBytes _ => true | _ => false end
  | SerNullable s => is_py_none v || fits s v
  | SerDefault _ s => fits s v
  | SerList _ s => match v with PList l => forallb (fits s) l | _ => false end
  | SerSet s => match v with PSet l => forallb (fits s) l | _ => false end
  | SerFrozenSet s => match v with PFrozenSet l => forallb (fits s) l | _ => false end
  | SerTuple _ ss None =>
      match v with
      | PTuple l => (fix go ss l := match ss, l with [], [] => true | s :: ss, v :: l => fits s v && go ss l | _, _ => false end) ss l
      | _ => false
      end
  | SerDict _ k s => match v with PDict d => forallb (fun kv => is_key k && fits k (fst kv) && fits s (snd kv)) d | _ => false end
  | _ => false
  end.
