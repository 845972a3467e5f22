(** What it means to build a schema as it is written, and consistent use of classes. *)
From Coq Require Import List NArith Bool.
From Verif Require Import Base Prebuilt.
Import ListNotations.

(** The validator of a schema, from the schema alone. *)
Fixpoint as_written (cfg : nat) (s : schema) : tree :=
  match s with
  | Node k l => TNode k cfg (map (as_written cfg) l)
  | Func k f s => TFunc k f cfg (as_written cfg s)
  | Class dc cls g c s => TClass dc cls g c (as_written c s)
  end.

(** All class schemas in a schema satisfy P (the class schema as a whole). *)
Fixpoint classes (P : schema -> Prop) (s : schema) : Prop :=
  match s with
  | Node _ l => (fix all l := match l with [] => True | s :: l => classes P s /\ all l end) l
  | Func _ _ s => classes P s
  | Class dc cls g c s' => P (Class dc cls g c s') /\ classes P s'
  end.

Section Consistent.
(** The one schema that each class has as a class. *)
Variable own : N -> schema.
(** A class schema is that of its class, or that of a parametrized generic dataclass. *)
Definition is_own (s : schema) : Prop := match s with Class dc cls g _ _ => (dc = true /\ g = true) \/ s = own cls | _ => True end.
(** The class's own schema, maybe with after and wrap functions around it. *)
Inductive declares (cls : N) : schema -> Prop :=
| D_class : declares cls (own cls)
| D_func k f s : k <> Before -> declares cls s -> declares cls (Func k f s).
Definition consistent (l : list definition) : Prop :=
  Forall (fun d => declares (d_cls d) (d_schema d) /\ classes is_own (d_schema d)) l.
(** Own schemas are class schemas of that class. *)
Definition own_ok : Prop := forall cls, exists dc g cfg s, own cls = Class dc cls g cfg s.
End Consistent.
