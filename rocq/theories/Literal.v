(** Model of literals (src/validators/literal.rs), used by the literal validator, by
    tagged unions and by enums. *)
From Coq Require Import List NArith ZArith Bool.
From Verif Require Import Base Float64 IntParse Numbers BytesCodec Decimal Utf8 Values VState LookupKey Collections Child Inputs Scalars.
Import ListNotations.
Open Scope nat_scope.

(** A Python dict from values to positions. *)
Fixpoint pd_set (k : pyval) (id : nat) (d : list (pyval * nat)) : list (pyval * nat) :=
  match d with
  | [] => [(k, id)]
  | (k', id') :: d' => if py_eq k' k then (k', id) :: d' else (k', id') :: pd_set k id d'
  end.
Fixpoint pd_get (k : pyval) (d : list (pyval * nat)) : option nat :=
  match d with
  | [] => None
  | (k', id) :: d' => if py_eq k' k then Some id else pd_get k d'
  end.
(** [d.get_item(v)] where a TypeError (unhashable) is a miss (literal.rs:160-169). *)
Definition pd_lookup (v : pyval) (d : list (pyval * nat)) : option nat := if hashable v then pd_get v d else None.

(** literal.rs:26-44 [LiteralLookup].  The Rust hash maps are lists, latest insertion
    first. *)
Record lookup := {
  lk_true : option nat; lk_false : option nat; lk_int : list (Z * nat); lk_str : list (str * nat);
  lk_py_dict : list (pyval * nat); lk_py_values : list (pyval * nat); lk_prims : list (pyval * nat) }.
Definition lk_empty : lookup :=
  {| lk_true := None; lk_false := None; lk_int := []; lk_str := []; lk_py_dict := []; lk_py_values := []; lk_prims := [] |}.

Fixpoint z_get (z : Z) (m : list (Z * nat)) : option nat :=
  match m with [] => None | (z', id) :: m' => if Z.eqb z' z then Some id else z_get z m' end.

(** literal.rs:55-87: adding one expected value. *)
Definition lk_add_bool (k : pyval) (id : nat) (lk : lookup) : lookup :=
  match strip k with
  | PBool b =>
      {| lk_true := if b then Some id else lk_true lk; lk_false := if b then lk_false lk else Some id;
         lk_int := lk_int lk; lk_str := lk_str lk; lk_py_dict := lk_py_dict lk; lk_py_values := lk_py_values lk;
         lk_prims := pd_set k id (lk_prims lk) |}
  | _ => lk
  end.
Definition lk_add (k : pyval) (id : nat) (lk0 : lookup) : lookup :=
  let lk := lk_add_bool k id lk0 in
  let other :=
    if hashable k
    then {| lk_true := lk_true lk; lk_false := lk_false lk; lk_int := lk_int lk; lk_str := lk_str lk;
            lk_py_dict := pd_set k id (lk_py_dict lk); lk_py_values := lk_py_values lk; lk_prims := lk_prims lk |}
    else {| lk_true := lk_true lk; lk_false := lk_false lk; lk_int := lk_int lk; lk_str := lk_str lk;
            lk_py_dict := lk_py_dict lk; lk_py_values := lk_py_values lk ++ [(k, id)]; lk_prims := lk_prims lk |} in
  match k with
  | PInt z =>
      if fits_i64 z
      then {| lk_true := lk_true lk; lk_false := lk_false lk; lk_int := (z, id) :: lk_int lk; lk_str := lk_str lk;
              lk_py_dict := lk_py_dict lk; lk_py_values := lk_py_values lk; lk_prims := pd_set k id (lk_prims lk) |}
      else other
  | PStr t =>
      {| lk_true := lk_true lk; lk_false := lk_false lk; lk_int := lk_int lk; lk_str := (t, id) :: lk_str lk;
         lk_py_dict := lk_py_dict lk; lk_py_values := lk_py_values lk; lk_prims := pd_set k id (lk_prims lk) |}
  | _ => other
  end.
Fixpoint lk_build_from (id : nat) (ks : list pyval) (lk : lookup) : lookup :=
  match ks with [] => lk | k :: ks' => lk_build_from (S id) ks' (lk_add k id lk) end.
Definition lk_build (ks : list pyval) : lookup := lk_build_from 0 ks lk_empty.

Section Validate.
Variable parse_f64 : str -> option f64.
Variable py_str : pyval -> str.
Variable f64_to_string : f64 -> str.
Variable max_digits : N.

(** return_enums.rs:589-610 [into_i64]. *)
Definition into_i64 (n : either_int) : vres Z :=
  if fits_i64 (int_value n) then VOk (int_value n) else val_err EIntParsingSize (IPy (PInt (int_value n))).

Definition is_python (i : input) : bool := match i with IPy _ => true | _ => false end.

(** literal.rs:106-115. *)
Definition bool_slot (lk : lookup) (i : input) : option nat :=
  match validate_bool true i with
  | VOk (true, _) => lk_true lk
  | VOk (false, _) => lk_false lk
  | VErr _ => None
  end.
(** literal.rs:116-123: [None] means that the lookup goes on. *)
Definition int_slot (lk : lookup) (i : input) : vres (option nat) :=
  match lk_int lk with
  | [] => VOk None
  | _ =>
      match exact_int max_digits i with
      | Some n => match into_i64 n with VOk z => VOk (z_get z (lk_int lk)) | VErr e => VErr e end
      | None => VOk None
      end
  end.
(** literal.rs:124-142. *)
Definition str_slot (lk : lookup) (i : input) : option nat :=
  let t := if is_python i then exact_str_of py_str f64_to_string i
           else match validate_str py_str f64_to_string true false i with VOk (t, _) => Some t | VErr _ => None end in
  match t with Some t => assoc t (lk_str lk) | None => None end.
Fixpoint values_slot (l : list (pyval * nat)) (v : pyval) : option nat :=
  match l with [] => None | (k, id) :: l' => if py_eq k v then Some id else values_slot l' v end.

(** literal.rs:101-193 [validate]: the position of the matching expected value. *)
Definition lk_validate (lk : lookup) (i : input) : vres (option nat) :=
  match bool_slot lk i with
  | Some id => VOk (Some id)
  | None =>
      match int_slot lk i with
      | VErr e => VErr e
      | VOk (Some id) => VOk (Some id)
      | VOk None =>
          match str_slot lk i with
          | Some id => VOk (Some id)
          | None =>
              let v := input_object i in
              match pd_lookup v (lk_py_dict lk) with
              | Some id => VOk (Some id)
              | None =>
                  match values_slot (lk_py_values lk) v with
                  | Some id => VOk (Some id)
                  | None => VOk (pd_lookup v (lk_prims lk))
                  end
              end
          end
      end
  end.

(** literal.rs:305-322: the literal validator. *)
Definition literal_validate (expected : list pyval) : validator := fun i s =>
  match lk_validate (lk_build expected) i with
  | VErr e => (VErr e, s)
  | VOk (Some id) => match nth_error expected id with Some v => (VOk v, s) | None => (VErr Panic, s) end
  | VOk None => (val_err ELiteralError i, s)
  end.
End Validate.
