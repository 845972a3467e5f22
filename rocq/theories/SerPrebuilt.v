(** Model of the reuse of serializers that classes already have: src/common/prebuilt.rs,
    src/serializers/prebuilt.rs and how [CombinedSerializer::_build] and the function
    serializers lead to it. *)
From Coq Require Import List NArith Bool.
From Verif Require Import Base.
Import ListNotations.

(** serializers/type_serializers/format.rs:18-23. *)
Inductive when_used := Always | UnlessNone | Json | JsonUnlessNone.
(** format.rs:38-45 [should_use], of whether the value is None and the mode is json. *)
Definition should_use (w : when_used) (none json : bool) : bool :=
  match w with Always => true | UnlessNone => negb none | Json => json | JsonUnlessNone => json && negb none end.

(** Core schemas, as far as building serializers looks at them: schemas of kind [k] with the
    schemas inside of them (no references); before, after and wrap validator functions
    around a schema; model and dataclass schemas with their class, whether a generic_origin
    is given, and their config; and a schema with a `serialization` of type function-plain,
    function-wrap or any other type that replaces the schema's type ([SerPlain] … [s] is the
    schema [s] with that key added; the others, such as base64, are part of the kind).  A
    return_schema that is not given is the schema of Any.  Configs, kinds and functions are
    numbers. *)
Inductive schema :=
| Node (k : nat) (l : list schema)
| Func (s : schema)
| Class (dataclass : bool) (cls : N) (generic : bool) (cfg : nat) (s : schema)
| SerPlain (f : nat) (w : when_used) (ret : schema) (s : schema)
| SerWrap (f : nat) (w : when_used) (ret : schema) (inner : option schema) (s : schema)
| SerOther (k : nat) (l : list schema) (s : schema).

(** Serializers; each is built with the config in force.  [TPre] is a [PrebuiltSerializer]. *)
Inductive tree :=
| TNode (k : nat) (cfg : nat) (l : list tree)
| TClass (dataclass : bool) (cls : N) (generic : bool) (cfg : nat) (t : tree)
| TPlain (f : nat) (w : when_used) (ret : tree) (fallback : option tree)
| TWrap (f : nat) (w : when_used) (ret : tree) (t : tree)
| TPre (t : tree).

(** What the __dict__ of a class has: __pydantic_complete__, and __pydantic_serializer__
    (None: no such attribute, or no SchemaSerializer). *)
Record class_state := { complete : bool; stored : option tree }.
Definition world := N -> class_state.

(** serializers/prebuilt.rs:18-27: only function-wrap serializers are excluded. *)
Definition usable (t : tree) : bool := match t with TWrap _ _ _ _ => false | _ => true end.
(** common/prebuilt.rs:7-44 [get_prebuilt] for a model or dataclass schema; errors are
    taken for None (shared.rs:201). *)
Definition get_prebuilt (w : world) (dataclass generic : bool) (cls : N) : option tree :=
  if dataclass && generic then None
  else if complete (w cls) then match stored (w cls) with Some t => if usable t then Some (TPre t) else None | None => None end
  else None.

(** shared.rs:153-207 [_build]: `serialization` first, then the class's serializer, then the
    type.  function.rs:31-49 and 312-327: validator functions serialize as what is inside.
    function.rs:102-140: a plain function that is not always used has the schema without
    `serialization` as its fallback; function.rs:348-384: a wrap function gets
    serialization.schema or the schema without `serialization`.  model.rs:104-112,
    dataclass.rs:88-98: a class takes its own config and not the one around it. *)
Fixpoint build (w : world) (cfg : nat) (s : schema) : tree :=
  match s with
  | Node k l => TNode k cfg (map (build w cfg) l)
  | Func s => build w cfg s
  | Class dc cls g c s => match get_prebuilt w dc g cls with Some t => t | None => TClass dc cls g c (build w c s) end
  | SerPlain f u ret s => TPlain f u (build w cfg ret) (match u with Always => None | _ => Some (build w cfg s) end)
  | SerWrap f u ret inner s => TWrap f u (build w cfg ret) (match inner with Some i => build w cfg i | None => build w cfg s end)
  | SerOther k l _ => TNode k cfg (map (build w cfg) l)
  end.

(** What a serializer is to the ones around it: whether it has models in it to try again
    without the strict check ([retry_with_lax_check]), its name ([get_name], a number here),
    and what it does with a call.  A call has the value and mode, the filters and the other
    options. *)
Record sem (call answer : Type) := { retry : bool; name : nat; ans : call -> answer }.
Arguments retry {call answer} s.
Arguments name {call answer} s.
Arguments ans {call answer} s _.

(** Of a call, [none] and [json] say whether the value is None and the mode is json, and
    [unfiltered] is the call without include and exclude.  What the serializers of each kind
    and the functions do with a call, given the serializers inside of them, is not modelled
    here: it can be anything that does not look at how those are made. *)
Record interp (call answer : Type) := {
  none : call -> bool;
  json : call -> bool;
  unfiltered : call -> call;
  node_retry : nat -> list bool -> bool;
  node_name : nat -> list nat -> nat;
  node : nat -> nat -> list (sem call answer) -> call -> answer;
  class_retry : bool -> bool -> bool;
  class_name : N -> nat;
  class : bool -> N -> bool -> nat -> sem call answer -> call -> answer;
  plain_name : nat -> nat;
  plain : nat -> sem call answer -> call -> answer;
  wrap_name : nat -> nat -> nat;
  wrap : nat -> sem call answer -> sem call answer -> call -> answer;
  panic : call -> answer
}.
Arguments none {call answer} i _.
Arguments json {call answer} i _.
Arguments unfiltered {call answer} i _.
Arguments node_retry {call answer} i _ _.
Arguments node_name {call answer} i _ _.
Arguments node {call answer} i _ _ _ _.
Arguments class_retry {call answer} i _ _.
Arguments class_name {call answer} i _.
Arguments class {call answer} i _ _ _ _ _ _.
Arguments plain_name {call answer} i _.
Arguments plain {call answer} i _ _ _.
Arguments wrap_name {call answer} i _ _.
Arguments wrap {call answer} i _ _ _ _.
Arguments panic {call answer} i _.

(** function.rs:143-290 and 386-427: a function that is not to be used leaves the value to
    the fallback, without the filters; the names of function.rs:128 and 372.
    prebuilt.rs:32-75: a prebuilt serializer answers all as the stored one. *)
Fixpoint means {call answer} (i : interp call answer) (t : tree) : sem call answer :=
  match t with
  | TNode k cfg l =>
      let ms := map (means i) l in
      {| retry := node_retry i k (map retry ms); name := node_name i k (map name ms); ans := node i k cfg ms |}
  | TClass dc cls g c t =>
      let m := means i t in
      {| retry := class_retry i dc (retry m); name := class_name i cls; ans := class i dc cls g c m |}
  | TPlain f u ret fb =>
      let r := means i ret in
      let b := match fb with Some t => Some (means i t) | None => None end in
      {| retry := match b with Some m => retry m | None => false end || retry r;
         name := plain_name i f;
         ans := fun q => if should_use u (none i q) (json i q) then plain i f r q
                         else match b with Some m => ans m (unfiltered i q) | None => panic i q end |}
  | TWrap f u ret t =>
      let r := means i ret in
      let m := means i t in
      {| retry := retry m || retry r;
         name := wrap_name i f (name m);
         ans := fun q => if should_use u (none i q) (json i q) then wrap i f r m q else ans m (unfiltered i q) |}
  | TPre t => means i t
  end.

(** Defining a class: while its serializer is built it is not complete; then the serializer
    is stored. *)
Definition set (w : world) (cls : N) (c : class_state) : world := fun x => if (x =? cls)%N then c else w x.
Record definition := { d_cls : N; d_cfg : nat; d_schema : schema }.
Definition define (w : world) (d : definition) : world :=
  let w := set w (d_cls d) {| complete := false; stored := None |} in
  set w (d_cls d) {| complete := true; stored := Some (build w (d_cfg d) (d_schema d)) |}.
Definition no_classes : world := fun _ => {| complete := false; stored := None |}.
Definition history (l : list definition) : world := fold_left define l no_classes.
