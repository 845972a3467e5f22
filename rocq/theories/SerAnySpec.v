(** What the theorems about serialize_as_any say. *)
From Coq Require Import List NArith ZArith Bool.
From Verif Require Import Base Float64 Utf8 Decimal Values Filter FilterSpec Classes SerBase Ser SerFieldsSpec.
Import ListNotations.
Open Scope nat_scope.

(** The schemas of classes: models and dataclasses. *)
Definition class_schema (s : ser) : bool := match s with SerModel _ _ _ _ | SerDataclass _ _ _ => true | _ => false end.

(** Two schemas that differ in the classes they name only: where one has the schema of a
    class, the other has the schema of any class whatever.  With [own] the schema itself
    is that of the same class in both, and the difference is in its fields. *)
Fixpoint alike (own : bool) (s s' : ser) {struct s} : Prop :=
  let all := fix all (l l' : list ser) : Prop :=
    match l, l' with [], [] => True | a :: r, a' :: r' => alike own a a' /\ all r r' | _, _ => False end in
  let opt o o' := match o, o' with Some a, Some a' => alike own a a' | None, None => True | _, _ => False end in
  match s, s' with
  | SerAny, SerAny | SerNone, SerNone | SerInt, SerInt | SerBool, SerBool | SerStr, SerStr => True
  | SerFloat m, SerFloat m' => m = m'
  | SerBytes m, SerBytes m' => m = m'
  | SerNullable a, SerNullable a' => alike own a a'
  | SerDefault d a, SerDefault d' a' => d = d' /\ alike own a a'
  | SerList f a, SerList f' a' => f = f' /\ alike own a a'
  | SerSet a, SerSet a' | SerFrozenSet a, SerFrozenSet a' => alike own a a'
  | SerTuple f l v, SerTuple f' l' v' => f = f' /\ v = v' /\ all l l'
  | SerDict f k v, SerDict f' k' v' => f = f' /\ alike true k k' /\ alike own v v'
  | SerFields m fs ex cs, SerFields m' fs' ex' cs' =>
      m = m' /\
      (fix each (l l' : list (str * field ser)) : Prop :=
         match l, l' with
         | [], [] => True
         | (n, f) :: r, (n', f') :: r' =>
             (n = n' /\ f_alias f = f_alias f' /\ f_required f = f_required f' /\ f_by_alias f = f_by_alias f' /\ opt (f_ser f) (f_ser f')) /\ each r r'
         | _, _ => False
         end) fs fs' /\
      opt ex ex' /\
      (fix each (l l' : list (computed ser)) : Prop :=
         match l, l' with
         | [], [] => True
         | c :: r, c' :: r' =>
             (cf_name c = cf_name c' /\ cf_alias c = cf_alias c' /\ cf_by_alias c = cf_by_alias c' /\ alike true (cf_ser c) (cf_ser c')) /\ each r r'
         | _, _ => False
         end) cs cs'
  | SerModel c a h r, SerModel c' a' h' r' => own = true -> c = c' /\ h = h' /\ r = r' /\ alike false a a'
  | SerDataclass c a n, SerDataclass c' a' n' => own = true -> c = c' /\ n = n' /\ alike false a a'
  | SerModel _ _ _ _, SerDataclass _ _ _ | SerDataclass _ _ _, SerModel _ _ _ _ => own = false
  | SerUnion l, SerUnion l' => all l l'
  | SerTagged d t l, SerTagged d' t' l' => d = d' /\ t = t' /\ all l l'
  | SerLiteral l, SerLiteral l' => l = l'
  | SerEnum c o, SerEnum c' o' => c = c' /\ opt o o'
  | SerToString w, SerToString w' => w = w'
  | SerJsonOrPython j p, SerJsonOrPython j' p' => alike own j j' /\ alike own p p'
  | SerJson a, SerJson a' => alike own a a'
  | SerDef k r, SerDef k' r' => k = k' /\ r = r'
  | SerFunction w i f r fb, SerFunction w' i' f' r' fb' => w = w' /\ i = i' /\ f = f' /\ alike own r r' /\ opt fb fb'
  | _, _ => False
  end.

(** The same surroundings with other serializers for the classes and the definitions. *)
Definition with_schemas (E : env) (own : N -> option (ser * config)) (defs : nat -> option ser) : env :=
  {| e_class := fun n => {| ci_ser := own n; ci_dataclass := ci_dataclass (e_class E n); ci_enum := ci_enum (e_class E n) |};
     e_sub := e_sub E; e_def := defs; e_str := e_str E; e_hash := e_hash E; e_prop := e_prop E; e_ryu := e_ryu E; e_stack := e_stack E |}.
Definition own_alike (E : env) (own : N -> option (ser * config)) : Prop :=
  forall n, match ci_ser (e_class E n), own n with
            | Some (s, c), Some (s', c') => c = c' /\ alike true s s'
            | None, None => True
            | _, _ => False
            end.
Definition defs_alike (E : env) (defs : nat -> option ser) : Prop :=
  forall k, match e_def E k, defs k with Some s, Some s' => alike true s s' | None, None => True | _, _ => False end.

(** What serialize_as_any writes for a value that a class schema is given: the fields that
    the serializer of the value's own class has, in order, under their names or aliases,
    each written in the same way; not the fields of the class in the schema. *)
Definition own_fields (E : env) (v : pyval) : option (list (str * field ser)) :=
  match class_of v with
  | Some n => match ci_ser (e_class E n) with Some (SerModel _ (SerFields SimpleDict fs None []) false false, _) => Some fs | _ => None end
  | None => None
  end.
Definition scalar_json (s : ser) (v : pyval) : option json :=
  match s, v with
  | SerInt, PInt z => Some (JInt z)
  | SerBool, PBool b => Some (JBool b)
  | SerStr, PStr t => Some (JStr t)
  | SerNone, PNone | SerNullable _, PNone => Some JNull
  | _, _ => None
  end.
Definition instance_dict (E : env) (o : options) (v : pyval) (d : list (str * pyval)) (fields_set : list str) : Prop :=
  dict_attr v = Some (as_dict d) /\ (o_exclude_unset o = true -> get_attr E v dunder_fields_set = Some (PSet (map PStr fields_set))).
Inductive shown (E : env) (o : options) : ser -> pyval -> json -> Prop :=
| Shown_scalar s v j : scalar_json s v = Some j -> shown E o s v j
| Shown_nullable s v j : v <> PNone -> shown E o s v j -> shown E o (SerNullable s) v j
| Shown_default d s v j : shown E o s v j -> shown E o (SerDefault d s) v j
| Shown_list s vs js : Forall2 (shown E o s) vs js -> shown E o (SerList any_filter s) (PList vs) (JArr js)
| Shown_class s v fs d fields_set l : class_schema s = true -> own_fields E v = Some fs -> instance_dict E o v d fields_set ->
    Forall2 (fun kv n => fst kv = written_name o n /\ shown E o (n_ser n) (n_value n) (snd kv)) l
      (List.filter (fun n => negb (omitted o fields_set n)) (entries fs d)) ->
    shown E o s v (JObj l).
(** The values considered: None, bools, ints, strs, lists and instances of models without
    computed or additional fields, the depth being at most [n]. *)
Fixpoint fits (E : env) (o : options) (n : nat) (s : ser) (v : pyval) : Prop :=
  match n with
  | O => False
  | S n =>
      scalar_json s v <> None \/
      (exists s', s = SerNullable s' /\ v <> PNone /\ fits E o n s' v) \/
      (exists d s', s = SerDefault d s' /\ fits E o n s' v) \/
      (exists s' vs, s = SerList any_filter s' /\ v = PList vs /\ Forall (fits E o n s') vs) \/
      (class_schema s = true /\ exists fs d fields_set, own_fields E v = Some fs /\ instance_dict E o v d fields_set /\
         Forall (fun e => fits E o n (n_ser e) (n_value e)) (entries fs d))
  end.
