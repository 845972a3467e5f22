(** What it means to build a serializer from a schema as it is written, and consistent use of
    classes. *)
From Coq Require Import List NArith Bool.
From Verif Require Import Base SerPrebuilt.
Import ListNotations.

(** The serializer of a schema, from the schema alone. *)
Fixpoint as_written (cfg : nat) (s : schema) : tree :=
  match s with
  | Node k l => TNode k cfg (map (as_written cfg) l)
  | Func s => as_written cfg s
  | Class dc cls g c s => TClass dc cls g c (as_written c s)
  | SerPlain f u ret s => TPlain f u (as_written cfg ret) (match u with Always => None | _ => Some (as_written cfg s) end)
  | SerWrap f u ret inner s => TWrap f u (as_written cfg ret) (match inner with Some i => as_written cfg i | None => as_written cfg s end)
  | SerOther k l _ => TNode k cfg (map (as_written cfg) l)
  end.

(** Two serializers that nothing around them, and no call, can tell apart. *)
Definition same {call answer} (a b : sem call answer) : Prop :=
  retry a = retry b /\ name a = name b /\ forall q, ans a q = ans b q.

(** What is asked of the parts that are not modelled: they do the same with the same
    serializers inside of them, and leaving out the filters of a call leaves the rest. *)
Record respects {call answer} (i : interp call answer) : Prop := {
  r_node : forall k c l l' q, Forall2 same l l' -> node i k c l q = node i k c l' q;
  r_class : forall dc cls g c m m' q, same m m' -> class i dc cls g c m q = class i dc cls g c m' q;
  r_plain : forall f r r' q, same r r' -> plain i f r q = plain i f r' q;
  r_wrap : forall f r r' m m' q, same r r' -> same m m' -> wrap i f r m q = wrap i f r' m' q;
  r_none : forall q, none i (unfiltered i q) = none i q;
  r_json : forall q, json i (unfiltered i q) = json i q;
  r_twice : forall q, unfiltered i (unfiltered i q) = unfiltered i q }.

Section Consistent.
(** The one schema that each class has, with the serializer function of the class if it has
    one. *)
Variable decl : N -> schema.

(** Each class schema in a schema is that of a parametrized generic dataclass, or stands in
    the schema of its class as a whole: [b] is the class whose schema one is in.  Schemas that
    `serialization` replaces, and so nothing is built from, can be anything. *)
Fixpoint used (b : option N) (s : schema) : Prop :=
  exists b', (b' = b \/ (b = None /\ exists cls, b' = Some cls /\ s = decl cls)) /\
  match s with
  | Node _ l => b' = None /\ (fix all l := match l with [] => True | s :: l => used None s /\ all l end) l
  | Func s => used b' s
  | Class dc cls g _ s => (b' = Some cls \/ (b' = None /\ dc = true /\ g = true)) /\ used None s
  | SerPlain _ u ret s => used None ret /\ (u = Always \/ used b' s)
  | SerWrap _ _ ret inner s => used None ret /\ match inner with Some i => used None i | None => used b' s end
  | SerOther _ l _ => (fix all l := match l with [] => True | s :: l => used None s /\ all l end) l
  end.

(** The schema of a class: the class schema with any validator functions, plain serializer
    functions and replacing serializations around it; or one whose outermost serializer is a
    wrap function. *)
Inductive declares (cls : N) : schema -> Prop :=
| D_class dc g c s : declares cls (Class dc cls g c s)
| D_func s : declares cls s -> declares cls (Func s)
| D_plain f u ret s : declares cls s -> declares cls (SerPlain f u ret s)
| D_always f ret s : declares cls (SerPlain f Always ret s)
| D_other k l s : declares cls (SerOther k l s).
Inductive wrapped : schema -> Prop :=
| W_wrap f u ret inner s : wrapped (SerWrap f u ret inner s)
| W_func s : wrapped s -> wrapped (Func s).

Definition consistent (l : list definition) : Prop :=
  Forall (fun d => d_schema d = decl (d_cls d) /\ (declares (d_cls d) (d_schema d) \/ wrapped (d_schema d)) /\ used None (d_schema d)) l.
End Consistent.
