(** What it means that options only leave things out. *)
From Coq Require Import List NArith ZArith Bool.
From Verif Require Import Base Values Filter FilterSpec JsonText SerBase Ser SerSpec.
Import ListNotations.
Open Scope nat_scope.

(** [picked R l' l]: [l'] has some of the elements of [l], in their order, up to [R]. *)
Inductive picked {A} (R : A -> A -> Prop) : list A -> list A -> Prop :=
| P_nil : picked R [] []
| P_keep a b l' l : R a b -> picked R l' l -> picked R (a :: l') (b :: l)
| P_drop b l' l : picked R l' l -> picked R l' (b :: l).

(** [part j' j]: the JSON value [j'] is [j] with some items of arrays and some members of
    objects left out, at any depth. *)
Inductive part : json -> json -> Prop :=
| part_same j : part j j
| part_arr l' l : picked part l' l -> part (JArr l') (JArr l)
| part_obj d' d : picked (fun a b => fst a = fst b /\ part (snd a) (snd b)) d' d -> part (JObj d') (JObj d).

(** The same call without any option that leaves something out. *)
Definition in_full (o : options) : options :=
  {| o_by_alias := o_by_alias o; o_exclude_unset := false; o_exclude_defaults := false; o_exclude_none := false; o_round_trip := false;
     o_warnings := o_warnings o; o_fallback := o_fallback o; o_as_any := o_as_any o; o_include := None; o_exclude := None |}.

(** The schemas: no unions, no filters in the schema (`include` and `exclude` of lists,
    tuples and dicts), models (other than root models) made of fields; JSON text only
    without [round_trip], which would put text where there are values; with [careful],
    models do not keep additional fields. *)
Definition no_filter (f : schema_filter) : bool := is_none (sf_include f) && is_none (sf_exclude f).
Definition no_extra_model (m : fields_mode) : bool := match m with ModelExtra => false | _ => true end.
Definition cuttable (round_trip careful : bool) (s : ser) : bool :=
  match s with
  | SerUnion _ | SerTagged _ _ _ => false
  | SerJson _ => negb round_trip
  | SerList f _ | SerTuple f _ _ | SerDict f _ _ => no_filter f
  | SerModel _ i has_extra root =>
      root || match i with SerFields m _ _ _ => negb careful || (negb has_extra && no_extra_model m) | _ => false end
  | _ => true
  end.
