(** Model of src/lookup_key.rs: finding a field's value by name or alias path. *)
From Coq Require Import List NArith ZArith Bool.
From Verif Require Import Base Float64 Values VState.
Import ListNotations.
Open Scope nat_scope.

(** lookup_key.rs:428-434 [PathItem]; [Neg n] is the index -n. *)
Inductive path_item := PiS (k : str) | PiPos (n : nat) | PiNeg (n : nat).
(** lookup_key.rs:355-361 [LookupPath]. *)
Record lookup_path := { lp_first : str; lp_rest : list path_item }.
(** lookup_key.rs:16-27 [LookupKey]. *)
Inductive lookup_key :=
| Simple (p : lookup_path)
| Choice (p1 p2 : lookup_path)
| PathChoices (ps : list lookup_path).

(** What a schema gives as an alias: a string, or a Python list. *)
Inductive alias_item := ASt (s : str) | AIn (z : Z) | ALi (l : list alias_item) | AOther.
Inductive build_res (A : Type) := BOk (a : A) | BErr.
Arguments BOk {A}. Arguments BErr {A}.

(** lookup_key.rs:374-386 [LookupPath::from_str]. *)
Definition path_from_str (k : str) : lookup_path := {| lp_first := k; lp_rest := [] |}.

(** lookup_key.rs:488-507 [PathItem::from_py]. *)
Definition item_from_py (a : alias_item) : build_res path_item :=
  match a with
  | ASt s => BOk (PiS s)
  | AIn z =>
      if (0 <=? z)%Z && (z <? 2 ^ 64)%Z then BOk (PiPos (Z.to_nat z))
      else if (- 2 ^ 63 <=? z)%Z && (z <? 0)%Z then BOk (PiNeg (Z.to_nat (- z)))
      else BErr
  | _ => BErr
  end.

Fixpoint collect {A B} (f : A -> build_res B) (l : list A) : build_res (list B) :=
  match l with
  | [] => BOk []
  | x :: l' =>
      match f x with
      | BErr => BErr
      | BOk y => match collect f l' with BOk ys => BOk (y :: ys) | BErr => BErr end
      end
  end.

(** lookup_key.rs:388-407 [LookupPath::from_list]. *)
Definition path_from_list (a : alias_item) : build_res lookup_path :=
  match a with
  | ALi (ASt f :: rest) => match collect item_from_py rest with BOk r => BOk {| lp_first := f; lp_rest := r |} | BErr => BErr end
  | _ => BErr
  end.

(** lookup_key.rs:49-80 [LookupKey::from_py]. *)
Definition key_from_py (a : alias_item) (alt : option str) : build_res lookup_key :=
  match a with
  | ASt s => BOk (match alt with Some n => Choice (path_from_str s) (path_from_str n) | None => Simple (path_from_str s) end)
  | ALi l =>
      let locs :=
        match l with
        | [] => BErr
        | ASt _ :: _ => match path_from_list a with BOk p => BOk [p] | BErr => BErr end
        | _ => collect path_from_list l
        end in
      match locs with
      | BErr => BErr
      | BOk ps => BOk (PathChoices (match alt with Some n => ps ++ [path_from_str n] | None => ps end))
      end
  | _ => BErr
  end.

(** ** Python dicts *)

(** [len - n] and [n] as list positions. *)
Definition nth_pos {A} (l : list A) (n : nat) : option A := nth_error l n.
Definition nth_neg {A} (l : list A) (n : nat) : option A :=
  if Nat.leb n (length l) then nth_error l (length l - n) else None.

Definition item_key (i : path_item) : pyval :=
  match i with PiS k => PStr k | PiPos n => PInt (Z.of_nat n) | PiNeg n => PInt (- Z.of_nat n) end.

(** lookup_key.rs:509-517, 573-581 [py_get_item]: [v[item]] except on strings;
    [None] when it raises (CPython indexing trusted; user classes have no
    [__getitem__] here). *)
Fixpoint py_get_item (v : pyval) (i : path_item) : option pyval :=
  match v with
  | PStr _ => None
  | PList l | PTuple l => match i with PiS _ => None | PiPos n => nth_pos l n | PiNeg n => nth_neg l n end
  | PBytes b =>
      match i with
      | PiS _ => None
      | PiPos n => option_map (fun x => PInt (Z.of_N x)) (nth_pos b n)
      | PiNeg n => option_map (fun x => PInt (Z.of_N x)) (nth_neg b n)
      end
  | PDict d => dict_get (item_key i) d
  | PSub _ v' => py_get_item v' i
  | _ => None
  end.

(** [try_fold] over the rest of a path. *)
Fixpoint try_fold {V} (get : V -> path_item -> option V) (v : V) (rest : list path_item) : option V :=
  match rest with
  | [] => Some v
  | i :: rest' => match get v i with Some v' => try_fold get v' rest' | None => None end
  end.

(** The loop over PathChoices, given the first step. *)
Fixpoint first_path {V} (first : str -> option V) (get : V -> path_item -> option V) (ps : list lookup_path)
  : option (lookup_path * V) :=
  match ps with
  | [] => None
  | p :: ps' =>
      match first (lp_first p) with
      | None => first_path first get ps'
      | Some v0 =>
          match try_fold get v0 (lp_rest p) with
          | Some v => Some (p, v)
          | None => first_path first get ps'
          end
      end
  end.

(** lookup_key.rs:90-131 [py_get_dict_item] (and 145-186 [py_get_mapping_item],
    which differs only in treating every exception as absence). *)
Definition py_get_dict_item (k : lookup_key) (d : list (pyval * pyval)) : option (lookup_path * pyval) :=
  let first s := dict_get (PStr s) d in
  match k with
  | Simple p => option_map (pair p) (first (lp_first p))
  | Choice p1 p2 =>
      match first (lp_first p1) with
      | Some v => Some (p1, v)
      | None => option_map (pair p2) (first (lp_first p2))
      end
  | PathChoices ps => first_path first py_get_item ps
  end.

(** ** JSON objects *)

(** [dict.iter().rev().find_map(|(k, v)| (k == key).then_some(v))]. *)
Definition json_last (k : str) (l : list (str * json)) : option json := assoc k (rev l).

(** lookup_key.rs:527-550 [PathItem::json_get], [json_obj_get]. *)
Definition json_get_item (j : json) (i : path_item) : option json :=
  match j with
  | JObj l => match i with PiS k => json_last k l | _ => None end
  | JArr l =>
      match i with
      | PiPos n => nth_error l n
      | PiNeg n => if Nat.leb n (length l) then nth_error l (length l - n) else None
      | PiS _ => None
      end
  | _ => None
  end.

(** lookup_key.rs:261-326 [json_get]. *)
Definition json_get (k : lookup_key) (l : list (str * json)) : option (lookup_path * json) :=
  let first s := json_last s l in
  match k with
  | Simple p => option_map (pair p) (first (lp_first p))
  | Choice p1 p2 =>
      match first (lp_first p1) with
      | Some v => Some (p1, v)
      | None => option_map (pair p2) (first (lp_first p2))
      end
  | PathChoices ps => first_path first json_get_item ps
  end.

(** ** Attributes *)
Section Attributes.
(** [getattr]: a value, AttributeError or another exception. *)
Inductive attr_res := AVal (v : pyval) | AMissing | ARaise (e : pyexc).
Variable getattr : pyval -> str -> attr_res.

Fixpoint is_dict (v : pyval) : bool := match v with PDict _ => true | PSub _ v' => is_dict v' | _ => false end.

(** lookup_key.rs:519-525, 561-570 and 585-596 [py_get_attrs]. *)
Definition py_get_attrs (v : pyval) (i : path_item) : attr_res :=
  match i with
  | PiS k => if is_dict v then match py_get_item v i with Some x => AVal x | None => AMissing end else getattr v k
  | _ => match py_get_item v i with Some x => AVal x | None => AMissing end
  end.

Fixpoint attrs_fold (v : pyval) (rest : list path_item) : attr_res :=
  match rest with
  | [] => AVal v
  | i :: rest' => match py_get_attrs v i with AVal v' => attrs_fold v' rest' | r => r end
  end.

(** lookup_key.rs:188-236 [simple_py_get_attr]; the first item of a path choice goes
    through the dict test too (214), the other forms through [getattr] only. *)
Fixpoint attr_path (v : pyval) (ps : list lookup_path) : option (lookup_path * pyval) + pyexc :=
  match ps with
  | [] => inl None
  | p :: ps' =>
      match attrs_fold v (PiS (lp_first p) :: lp_rest p) with
      | AVal x => inl (Some (p, x))
      | AMissing => attr_path v ps'
      | ARaise e => inr e
      end
  end.
Definition simple_py_get_attr (k : lookup_key) (v : pyval) : option (lookup_path * pyval) + pyexc :=
  match k with
  | Simple p => match getattr v (lp_first p) with AVal x => inl (Some (p, x)) | AMissing => inl None | ARaise e => inr e end
  | Choice p1 p2 =>
      match getattr v (lp_first p1) with
      | AVal x => inl (Some (p1, x))
      | ARaise e => inr e
      | AMissing => match getattr v (lp_first p2) with AVal x => inl (Some (p2, x)) | AMissing => inl None | ARaise e => inr e end
      end
  | PathChoices ps => attr_path v ps
  end.

(** lookup_key.rs:238-259 [py_get_attr]: keyword arguments first, and a raising
    attribute becomes a line error. *)
Definition py_get_attr (k : lookup_key) (v : pyval) (kwargs : option (list (pyval * pyval))) : vres (option (lookup_path * pyval)) :=
  match match kwargs with Some d => py_get_dict_item k d | None => None end with
  | Some r => VOk (Some r)
  | None =>
      match simple_py_get_attr k v with
      | inl r => VOk r
      | inr _ => val_err EGetAttributeError (IPy v)
      end
  end.
End Attributes.

(** ** Locations *)

(** lookup_key.rs:552-558 [to_loc_item]. *)
Definition to_loc_item (i : path_item) : loc_item :=
  match i with PiS k => LStr k | PiPos n => LInt (Z.of_nat n) | PiNeg n => LInt (- Z.of_nat n) end.

(** lookup_key.rs:328-352 [error]. *)
Definition first_of (k : lookup_key) : option lookup_path :=
  match k with Simple p => Some p | Choice p _ => Some p | PathChoices ps => hd_error ps end.
Definition key_error (k : lookup_key) (t : etype) (i : input) (loc_by_alias : bool) (field_name : str) : option line_error :=
  if loc_by_alias then
    match first_of k with
    | None => None (* unwrap panics; impossible after key_from_py *)
    | Some p => Some {| le_type := t; le_loc := LRev (map to_loc_item (rev (lp_rest p)) ++ [LStr (lp_first p)]); le_input := i |}
    end
  else Some (new_error_loc t i (LStr field_name)).

(** lookup_key.rs:409-419 [apply_error_loc]. *)
Definition apply_error_loc (p : lookup_path) (e : line_error) (loc_by_alias : bool) (field_name : str) : line_error :=
  if loc_by_alias then
    with_outer (LStr (lp_first p)) (fold_left (fun e i => with_outer (to_loc_item i) e) (rev (lp_rest p)) e)
  else with_outer (LStr field_name) e.

(** ** Names and aliases: lookup_key.rs:598-641 [LookupKeyCollection] *)
Record key_collection := { kc_by_name : lookup_key; kc_by_alias : option lookup_key; kc_by_alias_then_name : option lookup_key }.
Definition collection_new (alias : option alias_item) (field_name : str) : build_res key_collection :=
  let by_name := Simple (path_from_str field_name) in
  match alias with
  | None => BOk {| kc_by_name := by_name; kc_by_alias := None; kc_by_alias_then_name := None |}
  | Some a =>
      match key_from_py a None, key_from_py a (Some field_name) with
      | BOk k1, BOk k2 => BOk {| kc_by_name := by_name; kc_by_alias := Some k1; kc_by_alias_then_name := Some k2 |}
      | _, _ => BErr
      end
  end.
(** [BErr]: the schema error for disabling both. *)
Definition collection_select (c : key_collection) (by_alias by_name : bool) : build_res lookup_key :=
  match by_alias, by_name with
  | true, true => BOk (unwrap_or (kc_by_alias_then_name c) (kc_by_name c))
  | true, false => BOk (unwrap_or (kc_by_alias c) (kc_by_name c))
  | false, true => BOk (kc_by_name c)
  | false, false => BErr
  end.
