(** Model of the reuse of validators that classes already have: src/common/prebuilt.rs,
    src/validators/prebuilt.rs and the place where build_validator calls it. *)
From Coq Require Import List NArith Bool.
From Verif Require Import Base.
Import ListNotations.

(** Core schemas, as far as building looks at them: schemas of kind [k] with the schemas
    inside of them (no references), functions around a schema, and model and dataclass
    schemas with their class, their config and whether a generic_origin is given.  Configs
    and kinds are numbers. *)
Inductive fkind := Before | After | Wrap.
Inductive schema :=
| Node (k : nat) (l : list schema)
| Func (k : fkind) (f : nat) (s : schema)
| Class (dataclass : bool) (cls : N) (generic : bool) (cfg : nat) (s : schema).

(** Validators; each is built with the config in force.  [TPre] is a [PrebuiltValidator]. *)
Inductive tree :=
| TNode (k : nat) (cfg : nat) (l : list tree)
| TFunc (k : fkind) (f : nat) (cfg : nat) (t : tree)
| TClass (dataclass : bool) (cls : N) (generic : bool) (cfg : nat) (t : tree)
| TPre (t : tree).

(** What the __dict__ of a class has: __pydantic_complete__, and __pydantic_validator__
    (None: no such attribute, or no SchemaValidator). *)
Record class_state := { complete : bool; stored : option tree }.
Definition world := N -> class_state.

(** validators/prebuilt.rs:19-30. *)
Definition usable (t : tree) : bool := match t with TFunc After _ _ _ | TFunc Wrap _ _ _ => false | _ => true end.
(** common/prebuilt.rs:7-44 [get_prebuilt] for a model or dataclass schema; errors are
    taken for None (mod.rs:569). *)
Definition get_prebuilt (w : world) (dataclass generic : bool) (cls : N) : option tree :=
  if dataclass && generic then None
  else if complete (w cls) then match stored (w cls) with Some t => if usable t then Some (TPre t) else None | None => None end
  else None.

(** mod.rs:552-575 [build_validator]; model.rs:76-82 and dataclass.rs:474-485: a class takes
    its own config and not the one around it; function.rs:57 and 313. *)
Fixpoint build (w : world) (cfg : nat) (s : schema) : tree :=
  match s with
  | Node k l => TNode k cfg (map (build w cfg) l)
  | Func k f s => TFunc k f cfg (build w cfg s)
  | Class dc cls g c s => match get_prebuilt w dc g cls with Some t => t | None => TClass dc cls g c (build w c s) end
  end.

(** validators/prebuilt.rs:35-46: a prebuilt validator does what the stored one does. *)
Fixpoint behaviour (t : tree) : tree :=
  match t with
  | TNode k cfg l => TNode k cfg (map behaviour l)
  | TFunc k f cfg t => TFunc k f cfg (behaviour t)
  | TClass dc cls g c t => TClass dc cls g c (behaviour t)
  | TPre t => behaviour t
  end.

(** Defining a class: while its validator is built it is not complete; then the validator
    is stored. *)
Definition set (w : world) (cls : N) (c : class_state) : world := fun x => if (x =? cls)%N then c else w x.
Record definition := { d_cls : N; d_cfg : nat; d_schema : schema }.
Definition define (w : world) (d : definition) : world :=
  let w := set w (d_cls d) {| complete := false; stored := None |} in
  set w (d_cls d) {| complete := true; stored := Some (build w (d_cfg d) (d_schema d)) |}.
Definition no_classes : world := fun _ => {| complete := false; stored := None |}.
Definition history (l : list definition) : world := fold_left define l no_classes.
