(** The life of a model instance: it is made by a validation and then assigned to. *)
From Coq Require Import List NArith ZArith Bool.
From Verif Require Import Base Values VState LookupKey Collections Child Wrappers ModelFields Assign AssignSpec Classes Interp.
Import ListNotations.
Open Scope nat_scope.

(** The instance made of what the validation of the fields returns (model.rs:363-375
    [set_model_attrs]), and back. *)
Definition born (v : pyval) : option minst :=
  match v with PTuple [PDict d; x; fs] => Some {| mi_dict := d; mi_extra := x; mi_set := Some fs |} | _ => None end.
Definition contents (m : minst) : option pyval :=
  match mi_set m with Some fs => Some (PTuple [PDict (mi_dict m); mi_extra m; fs]) | None => None end.
(** The model's fields as [eval] builds them. *)
Definition fields_of (E : env) (defs : nat -> option schema) (fuel : nat) (c : finfos) (fields : list (finfo * schema)) (ex exk : option schema) : fields_cfg :=
  mk_fields c (map (fun fi => mk_field (fst fi) (eval E (refs E defs fuel 0) (snd fi))) fields)
    (option_map (fun sc => cv_validate (eval E (refs E defs fuel 0) sc)) ex) (option_map (fun sc => cv_validate (eval E (refs E defs fuel 0) sc)) exk).
(** [validate_assignment] of a model that is neither frozen nor a root model. *)
Definition assign (E : env) (defs : nat -> option schema) (fuel : nat) (c : finfos) (fields : list (finfo * schema)) (ex exk : option schema)
    : minst -> str -> pyval -> state -> vres unit * minst * state :=
  model_assign false false (run E defs fuel (SModelFields c fields ex exk)) (model_fields_assign (fields_of E defs fuel c fields ex exk)).
(** No additional attribute has the name of a field. *)
Definition apart (fields : list (finfo * schema)) (m : minst) : Prop :=
  forall e n v f sc, mi_extra m = PDict e -> In (PStr n, v) e -> In (f, sc) fields -> fi_name f <> n.
