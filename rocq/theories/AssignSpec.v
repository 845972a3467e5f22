(** What assigning to an attribute of a model or dataclass should do. *)
From Coq Require Import List NArith ZArith Bool.
From Verif Require Import Base Float64 Values VState LookupKey Collections Child Wrappers Assign.
Import ListNotations.
Open Scope nat_scope.

(** Reading an attribute of a model: a field or an extra. *)
Definition attr (m : minst) (n : str) : option pyval :=
  match dict_get (PStr n) (mi_dict m) with
  | Some v => Some v
  | None => match mi_extra m with PDict e => dict_get (PStr n) e | _ => None end
  end.
Definition is_set (m : minst) (n : str) : Prop := exists l, mi_set m = Some (PSet l) /\ In (PStr n) l.

(** A dict with distinct string keys. *)
Definition keyed (d : pydict) : Prop := (forall k v, In (k, v) d -> exists s, k = PStr s) /\ NoDup (map fst d).
Definition has_key (n : str) (d : pydict) : Prop := exists v, dict_get (PStr n) d = Some v.
Definition declared (c : fields_cfg) (n : str) : Prop := exists f, In f (fc_fields c) /\ f_name f = n.

(** The instances that validation builds (C18, C20): only fields in __dict__, only
    non-fields in the extras, which exist exactly for extra='allow'. *)
Definition instance_of (c : fields_cfg) (m : minst) : Prop :=
  keyed (mi_dict m) /\
  (exists l, mi_set m = Some (PSet l) /\ forall x, In x l -> exists n, x = PStr n) /\
  match fc_extra c with
  | ExtraAllow => exists e, mi_extra m = PDict e /\ keyed e /\ (forall n, has_key n e -> ~ declared c n) /\ (forall n, has_key n (mi_dict m) -> declared c n)
  | _ => mi_extra m = PNone
  end.

(** The validator of [n] accepts [value] as [w], seeing the other attributes as data. *)
Definition sees_others (m : minst) (n : str) (t : state) : Prop :=
  exists d, x_data (st_extra t) = Some d /\ forall k, dict_get (PStr k) d = if str_eqb k n then None else attr m k.
Inductive assignable (c : fields_cfg) (m : minst) (n : str) (value : pyval) : pyval -> Prop :=
| as_field f t t' w : In f (fc_fields c) -> f_name f = n -> f_frozen f = false -> sees_others m n t -> x_field_name (st_extra t) = Some n ->
    cv_validate (f_cv f) (IPy value) t = (VOk w, t') -> assignable c m n value w
| as_extra v t t' w : ~ declared c n -> fc_extra c = ExtraAllow -> fc_extras c = Some v -> sees_others m n t ->
    v (IPy value) t = (VOk w, t') -> assignable c m n value w
| as_raw : ~ declared c n -> fc_extra c = ExtraAllow -> fc_extras c = None -> assignable c m n value value.

(** A series of assignment attempts through [step]; the names that were assigned. *)
Fixpoint attempts {O : Type} (step : O -> str -> pyval -> state -> vres unit * O * state) (ops : list (str * pyval * state)) (o : O) : O * list str :=
  match ops with
  | [] => (o, [])
  | (n, v, s) :: ops' =>
      match step o n v s with
      | (VOk _, o', _) => let '(o2, ns) := attempts step ops' o' in (o2, n :: ns)
      | (VErr _, o', _) => attempts step ops' o'
      end
  end.
