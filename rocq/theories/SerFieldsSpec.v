(** What the theorems about the fields of models, unions and tuple keys say. *)
From Coq Require Import List NArith ZArith Bool.
From Verif Require Import Base Float64 Utf8 Decimal Values Filter FilterSpec Classes SerBase Ser.
Import ListNotations.
Open Scope nat_scope.

(** The attributes of an instance, as Python's __dict__. *)
Definition as_dict (d : list (str * pyval)) : pyval := PDict (map (fun kv => (PStr (fst kv), snd kv)) d).

(** A field with its serializer and its value. *)
Record entry := { n_name : str; n_field : field ser; n_ser : ser; n_value : pyval }.
(** The attributes that are fields of the schema, not excluded by it, in the order of the
    instance. *)
Definition entries (fs : list (str * field ser)) (d : list (str * pyval)) : list entry :=
  flat_map (fun kv =>
    match assoc (fst kv) fs with
    | Some f => match f_ser f with
                | Some s => [{| n_name := fst kv; n_field := f; n_ser := s; n_value := snd kv |}]
                | None => []
                end
    | None => []
    end) d.
Definition default_of (s : ser) : option pyval := match s with SerDefault d _ => d | _ => None end.
(** Whether a field is left out. *)
Definition omitted (o : options) (fields_set : list str) (n : entry) : bool :=
  (o_exclude_unset o && negb (mem_str (n_name n) fields_set))
  || (o_exclude_none o && is_py_none (n_value n))
  || (o_exclude_defaults o && match default_of (n_ser n) with Some d => py_eq (n_value n) d | None => false end)
  || excluded (o_exclude o) [KStr (n_name n)] || negb (included (o_include o) [KStr (n_name n)]).
(** The name it is written under: by_alias of the call, then of the schema, then False. *)
Definition written_name (o : options) (n : entry) : str :=
  let by_alias := match o_by_alias o with Some b => b | None => match f_by_alias (n_field n) with Some b => b | None => false end end in
  if by_alias then match f_alias (n_field n) with Some a => a | None => n_name n end else n_name n.
(** Computed fields: a property of the instance, left out by the filters, by round_trip (and, when
    the value is None, by exclude_none). *)
Definition computed_kept (o : options) (cf : computed ser) : bool :=
  negb (o_round_trip o) && included (o_include o) [KStr (cf_name cf)] && negb (excluded (o_exclude o) [KStr (cf_name cf)]).
Definition computed_name (o : options) (cf : computed ser) : str :=
  let by_alias := match o_by_alias o with Some b => b | None => match cf_by_alias cf with Some b => b | None => false end end in
  if by_alias then cf_alias cf else cf_name cf.
Definition filters_ok (o : options) : Prop :=
  wf_top (o_include o) /\ no_conflict (o_include o) /\ wf_top (o_exclude o) /\ no_conflict (o_exclude o).

(** The parts of a tuple key, as they are written. *)
Definition part_text (v : pyval) : option str :=
  match v with
  | PStr s => if forallb scalar s then Some s else None
  | PInt z => Some (dec_Z z)
  | PBool b => Some (if b then lit "true" else lit "false")
  | PNone => Some (lit "None")
  | _ => None
  end.
Fixpoint part_texts (l : list pyval) : option (list str) :=
  match l with
  | [] => Some []
  | v :: r => match part_text v, part_texts r with Some s, Some ss => Some (s :: ss) | _, _ => None end
  end.
Fixpoint comma_joined (l : list str) : str :=
  match l with
  | [] => []
  | [s] => s
  | s :: r => s ++ lit "," ++ comma_joined r
  end.
Definition comma_free (s : str) : Prop := ~ In 44%N s.
(** The schemas considered for a part of a tuple key, and for the key. *)
Definition part_schema (s : ser) (v : pyval) : Prop :=
  match s, v with
  | SerAny, _ | SerStr, PStr _ | SerInt, PInt _ | SerBool, PBool _ | SerNone, PNone => True
  | _, _ => False
  end.
Definition tuple_key (s : ser) (parts : list pyval) : Prop :=
  match s with
  | SerAny => True
  | SerTuple f ss None => f = any_filter /\ Forall2 part_schema ss parts
  | _ => False
  end.
(** A key of a dict whose text in JSON is the parts, joined by commas. *)
Definition tuple_text (k : pyval) (t : str) : Prop := exists parts ts, k = PTuple parts /\ part_texts parts = Some ts /\ t = comma_joined ts.

(** The schemas that ask for a second, lax attempt in a union. *)
Fixpoint lax_schema (s : ser) : bool :=
  match s with
  | SerInt | SerTuple _ _ _ | SerModel _ _ _ _ | SerDataclass _ _ _ => true
  | SerNullable s | SerDefault _ s | SerList _ s => lax_schema s
  | SerUnion l | SerTagged _ _ l => existsb lax_schema l
  | SerEnum _ (Some s) => lax_schema s
  | SerFunction _ _ _ r fb => match fb with Some s => lax_schema s | None => false end || lax_schema r
  | SerDef _ r => r
  | _ => false
  end.
(** What a member of a union does with the value of the call, under a check. *)
Definition attempt_with (E : env) (c : config) (json : bool) (o : options) (v : pyval) (chk : check) (s : ser) : out pyval :=
  snd (z_py (build E (levels E ser_limit) s) v (o_include o) (o_exclude o) (set_check chk (start c json o))).
Definition rejected {A} (r : out A) : Prop := match r with Good _ => False | Bad _ => True end.
(** The first member for which the attempt succeeds, and its result. *)
Definition first_accepted {A} (run : ser -> out A) (members : list ser) (p : A) : Prop :=
  exists before m after, members = before ++ m :: after /\ Forall (fun s => rejected (run s)) before /\ run m = Good p.
Definition all_rejected {A} (run : ser -> out A) (members : list ser) : Prop := Forall (fun s => rejected (run s)) members.
