(** What the lookup of a field by name or alias path should do. *)
From Coq Require Import List NArith ZArith Bool.
From Verif Require Import Base Values VState LookupKey.
Import ListNotations.
Open Scope nat_scope.

(** The paths of a key, in order of preference. *)
Definition paths_of (k : lookup_key) : list lookup_path :=
  match k with Simple p => [p] | Choice p q => [p; q] | PathChoices ps => ps end.

(** The whole path, first item included. *)
Definition items (p : lookup_path) : list path_item := PiS (lp_first p) :: lp_rest p.

(** Position [i] of a sequence, counted from the front or from the back. *)
Inductive seq_at {A} (l : list A) : path_item -> A -> Prop :=
| at_front pre x post : l = pre ++ x :: post -> seq_at l (PiPos (length pre)) x
| at_back pre x post : l = pre ++ x :: post -> seq_at l (PiNeg (S (length post))) x.

(** [c[i]] on a Python value: the items of a dict by key, of a list or tuple by
    position from either end, never the characters of a string. *)
Inductive py_step : pyval -> path_item -> pyval -> Prop :=
| ps_dict d i v : dict_get (item_key i) d = Some v -> py_step (PDict d) i v
| ps_list l i v : seq_at l i v -> py_step (PList l) i v
| ps_tuple l i v : seq_at l i v -> py_step (PTuple l) i v
| ps_bytes b i x : seq_at b i x -> py_step (PBytes b) i (PInt (Z.of_N x))
| ps_sub c w i v : py_step w i v -> py_step (PSub c w) i v.

(** [c[i]] on a JSON value: in an object the last occurrence of a key counts. *)
Inductive json_step : json -> path_item -> json -> Prop :=
| js_obj pre k v post : ~ In k (map fst post) -> json_step (JObj (pre ++ (k, v) :: post)) (PiS k) v
| js_arr l i v : seq_at l i v -> json_step (JArr l) i v.

(** Following a path. *)
Inductive follow {V} (step : V -> path_item -> V -> Prop) : V -> list path_item -> V -> Prop :=
| follow_nil v : follow step v [] v
| follow_cons v i v1 is w : step v i v1 -> follow step v1 is w -> follow step v (i :: is) w.

(** The first path of the list that resolves, and what it resolves to. *)
Definition first_resolving {V} (resolves : lookup_path -> V -> Prop) (ps : list lookup_path) (p : lookup_path) (v : V) : Prop :=
  exists pre post, ps = pre ++ p :: post /\ resolves p v /\ forall q, In q pre -> forall w, ~ resolves q w.

(** Keys as [key_from_py] and [LookupKeyCollection] build them: the single forms hold
    plain names, and a path can be counted from the back only with a positive offset. *)
Definition good_path (p : lookup_path) : Prop := Forall (fun i => i <> PiNeg 0) (lp_rest p).
Definition built_key (k : lookup_key) : Prop :=
  Forall good_path (paths_of k) /\
  match k with
  | Simple p => lp_rest p = []
  | Choice p q => lp_rest p = [] /\ lp_rest q = []
  | PathChoices ps => ps <> []
  end.

(** [obj.a.b[0]...]: attributes by [getattr], dict items and positions by indexing. *)
Section Attrs.
Variable getattr : pyval -> str -> attr_res.
Inductive attr_step : pyval -> path_item -> attr_res -> Prop :=
| as_dict v k w : is_dict v = true -> py_step v (PiS k) w -> attr_step v (PiS k) (AVal w)
| as_dict_missing v k : is_dict v = true -> (forall w, ~ py_step v (PiS k) w) -> attr_step v (PiS k) AMissing
| as_attr v k : is_dict v = false -> attr_step v (PiS k) (getattr v k)
| as_pos v i w : (forall k, i <> PiS k) -> py_step v i w -> attr_step v i (AVal w)
| as_pos_missing v i : (forall k, i <> PiS k) -> (forall w, ~ py_step v i w) -> attr_step v i AMissing.
Inductive attr_follow : pyval -> list path_item -> attr_res -> Prop :=
| af_nil v : attr_follow v [] (AVal v)
| af_cons v i v1 is r : attr_step v i (AVal v1) -> attr_follow v1 is r -> attr_follow v (i :: is) r
| af_stop v i is r : attr_step v i r -> (forall v1, r <> AVal v1) -> attr_follow v (i :: is) r.
End Attrs.

(** A schema's alias read as a list of paths. *)
Inductive item_means : alias_item -> path_item -> Prop :=
| im_s s : item_means (ASt s) (PiS s)
| im_pos n : (Z.of_nat n < 2 ^ 64)%Z -> item_means (AIn (Z.of_nat n)) (PiPos n)
| im_neg n : n <> 0 -> (Z.of_nat n <= 2 ^ 63)%Z -> item_means (AIn (- Z.of_nat n)) (PiNeg n).
Inductive path_means : alias_item -> lookup_path -> Prop :=
| pm s rest r : Forall2 item_means rest r -> path_means (ALi (ASt s :: rest)) {| lp_first := s; lp_rest := r |}.
Inductive alias_means : alias_item -> list lookup_path -> Prop :=
| am_name s : alias_means (ASt s) [{| lp_first := s; lp_rest := [] |}]
| am_path s l p : path_means (ALi (ASt s :: l)) p -> alias_means (ALi (ASt s :: l)) [p]
| am_choices l ps : l <> [] -> Forall2 path_means l ps -> alias_means (ALi l) ps.
(** An alias item as it is shown in an error location. *)
Definition alias_loc (a : alias_item) : loc_item :=
  match a with ASt s => LStr s | AIn z => LInt z | _ => LStr [] end.
