(** Vocabulary for statements about whole schemas. *)
From Coq Require Import List NArith ZArith Bool.
From Verif Require Import Base Float64 IntParse Numbers BytesCodec Values VState LookupKey Collections Child Inputs Scalars Literal Wrappers Union TaggedUnion Tuple ModelFields TypedDict Assign Arguments Classes Interp.
Import ListNotations.
Open Scope nat_scope.

Definition opt_list {A} (o : option A) : list A := match o with Some a => [a] | None => [] end.

(** The schemas directly inside a schema. *)
Definition children (sc : schema) : list schema :=
  match sc with
  | SAny | SNone | SBool _ | SInt _ _ | SFloat _ _ | SStr _ | SBytes _ | SLiteral _ | SIsInstance _ | SPlain _ _ | SRef _ => []
  | SList _ item => opt_list item
  | SSet _ _ x | SNullable x | SDefault _ _ _ x | SCustomError _ x | SBefore _ _ x | SAfter _ _ x | SWrap _ _ x | SModel _ x | SDataclass _ x => [x]
  | STuple _ l | SChain l => l
  | SDict _ a b | SJsonOrPython a b | SLaxOrStrict _ a b => [a; b]
  | SUnion _ _ l => map fst l
  | STagged _ _ _ l => map snd l
  | SModelFields _ fs a b => map snd fs ++ opt_list a ++ opt_list b
  | STypedDict _ fs a => map snd fs ++ opt_list a
  | SArguments _ ps a b => map snd ps ++ opt_list a ++ opt_list b
  | SDataclassArgs _ fs a => map snd fs ++ opt_list a
  end.

(** [P] holds of a schema and of all schemas inside it. *)
Inductive everywhere (P : schema -> Prop) : schema -> Prop :=
| Everywhere sc : P sc -> (forall c, In c (children sc) -> everywhere P c) -> everywhere P sc.

(** A schema and all the definitions it may refer to. *)
Definition holds_of (P : schema -> Prop) (defs : nat -> option schema) (sc : schema) : Prop :=
  everywhere P sc /\ forall k d, defs k = Some d -> everywhere P d.

(** ** User code that does not raise a ValidationError without line errors *)
Definition not_empty_exc (e : pyexc) : Prop := e <> XValidation [].
Definition raises_properly {A B} (f : A -> B + pyexc) : Prop := forall a e, f a = inr e -> not_empty_exc e.
Inductive wrap_properly : wprog -> Prop :=
| WPReturn v : wrap_properly (WReturn v)
| WPRaise e : not_empty_exc e -> wrap_properly (WRaise e)
| WPCall v l k : (forall r, (forall e, r = inr e -> not_empty_exc e) -> wrap_properly (k r)) -> wrap_properly (WCall v l k).

(** The functions in the schema do that (including default factories, custom __init__
    and __post_init__, discriminator functions and the regular expression engine), and a
    union has a member (which building a validator insists on: union.rs:75-77). *)
Definition proper (sc : schema) : Prop :=
  match sc with
  | SBefore f _ _ | SAfter f _ _ | SPlain f _ => forall v inf e, f v inf = inr e -> not_empty_exc e
  | SWrap f _ _ => forall v inf, wrap_properly (f v inf)
  | SDefault (DFactory f _) _ _ _ => raises_properly f
  | SStr c => forall f, sc_pattern c = Some f -> raises_properly f
  | STagged (DFunction f) _ _ _ => raises_properly f
  | SModel c _ => (forall f, mo_custom_init c = Some f -> raises_properly f) /\ (forall f, mo_post_init c = Some f -> raises_properly f)
  | SDataclass c _ => forall f, da_post_init c = Some f -> forall v l e, f v l = inr e -> not_empty_exc e
  | SUnion _ _ l => l <> []
  | _ => True
  end.
