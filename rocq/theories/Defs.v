(** Model of src/definitions.rs (the definitions builder) and of the schema
    nodes that drive it: src/validators/definitions.rs and
    src/serializers/type_serializers/definitions.rs (same logic). *)
From Coq Require Import List NArith Bool.
From Verif Require Import Base.
Import ListNotations.

(** A core schema, reduced to what matters for definitions: any ordinary node
    with its sub-schemas (in build order), a "definition-ref" node, and a
    "definitions" node (declared definitions, then the inner schema). *)
Inductive schema :=
| SNode (label : N) (children : list schema)
| SRef (schema_ref : str)
| SDefs (definitions : list (str * schema)) (inner : schema).

(** A built validator/serializer.  A [DefinitionRef] (definitions.rs:40-46) holds
    a weak pointer to the shared [OnceLock]; here the index of that slot. *)
Inductive vnode :=
| VNode (label : N) (children : list vnode)
| VRef (slot : nat).

(** definitions.rs:32-37, 129-132: the map from names to [OnceLock]s ([None]:
    created but not yet filled), in creation order; the position is the identity
    of the slot.  Simplification: the [AHashMap] iteration order is not
    represented (only [finish] iterates, and it looks for any unfilled slot). *)
Definition builder := list (str * option vnode).

Fixpoint index_of (r : str) (b : builder) : option nat :=
  match b with
  | [] => None
  | (k, _) :: b' => if str_eqb r k then Some 0 else option_map S (index_of r b')
  end.

(** definitions.rs:142-160 [get_definition]. *)
Definition get_definition (r : str) (b : builder) : nat * builder :=
  match index_of r b with
  | Some i => (i, b)
  | None => (length b, b ++ [(r, None)])
  end.

Inductive build_error := DuplicateRef (r : str) | NeverFilled (r : str).
Inductive result (A : Type) := Ok (a : A) | Err (e : build_error).
Arguments Ok {A}. Arguments Err {A}.

(** [OnceLock::set] through the map entry: only the empty slot can be set. *)
Fixpoint set_slot (r : str) (v : vnode) (b : builder) : option builder :=
  match b with
  | [] => None
  | (k, c) :: b' =>
      if str_eqb r k then
        match c with None => Some ((k, Some v) :: b') | Some _ => None end
      else option_map (cons (k, c)) (set_slot r v b')
  end.

(** definitions.rs:163-185 [add_definition]. *)
Definition add_definition (r : str) (v : vnode) (b : builder) : result builder :=
  match index_of r b with
  | Some _ => match set_slot r v b with Some b' => Ok b' | None => Err (DuplicateRef r) end
  | None => Ok (b ++ [(r, Some v)])
  end.

(** validators/definitions.rs:20-42 and 54-67 [build]; an ordinary node builds
    its sub-schemas in order (the first error aborts the build). *)
Fixpoint build (s : schema) (b : builder) : result (vnode * builder) :=
  match s with
  | SRef r => let '(i, b') := get_definition r b in Ok (VRef i, b')
  | SNode l ss =>
      match (fix go (ss : list schema) (b : builder) : result (list vnode * builder) :=
               match ss with
               | [] => Ok ([], b)
               | s :: ss' =>
                   match build s b with
                   | Err e => Err e
                   | Ok (v, b1) =>
                       match go ss' b1 with
                       | Err e => Err e
                       | Ok (vs, b2) => Ok (v :: vs, b2)
                       end
                   end
               end) ss b with
      | Err e => Err e
      | Ok (vs, b') => Ok (VNode l vs, b')
      end
  | SDefs ds inner =>
      match (fix go (ds : list (str * schema)) (b : builder) : result builder :=
               match ds with
               | [] => Ok b
               | (r, s) :: ds' =>
                   match build s b with
                   | Err e => Err e
                   | Ok (v, b1) =>
                       match add_definition r v b1 with
                       | Err e => Err e
                       | Ok b2 => go ds' b2
                       end
                   end
               end) ds b with
      | Err e => Err e
      | Ok b1 => build inner b1
      end
  end.

(** definitions.rs:188-195 [finish]. *)
Fixpoint finish (b : builder) : option str :=
  match b with
  | [] => None
  | (r, None) :: _ => Some r
  | (_, Some _) :: b' => finish b'
  end.

(** validators/mod.rs:128-131 / serializers/mod.rs [py_new]: build then finish. *)
Definition build_schema (s : schema) : result (vnode * builder) :=
  match build s [] with
  | Err e => Err e
  | Ok (v, b) => match finish b with Some r => Err (NeverFilled r) | None => Ok (v, b) end
  end.

(** definitions.rs:75-77 [DefinitionRef::read]. *)
Definition read (b : builder) (slot : nat) : option vnode :=
  match nth_error b slot with Some (_, c) => c | None => None end.
