(** What a user relies on about error messages and reports, independently of how
    ErrReport.v computes them. *)
From Coq Require Import List NArith ZArith Bool.
From Verif Require Import Base Float64 Values Decimal VState ErrTable ErrReport.
Import ListNotations.
Open Scope Z_scope.

(** A message template read as text and placeholders "{name}". *)
Inductive piece := Text (s : str) | Hole (k : str).
Definition piece_text (p : piece) : str := match p with Text s => s | Hole k => lit "{" ++ k ++ lit "}" end.
Definition template_text (ps : list piece) : str := concat (map piece_text ps).
Definition no_open (s : str) : Prop := ~ In 123%N s.
Definition no_brace (s : str) : Prop := ~ In 123%N s /\ ~ In 125%N s.
(** Every opening brace of the template begins one of its placeholders. *)
Definition template_of (t : str) (ps : list piece) : Prop :=
  template_text ps = t /\
  Forall (fun p => match p with Text s => no_open s | Hole k => no_brace k end) ps.

(** The template with each placeholder that has a value replaced by it, all at
    once. *)
Fixpoint value_of (kvs : list (str * str)) (k : str) : option str :=
  match kvs with [] => None | (k', v) :: kvs' => if str_eqb k' k then Some v else value_of kvs' k end.
Definition filled (kvs : list (str * str)) (ps : list piece) : str :=
  concat (map (fun p => match p with
                        | Text s => s
                        | Hole k => match value_of kvs k with Some v => v | None => piece_text p end
                        end) ps).
(** No value but the last contains an opening brace. *)
Definition tame (vs : list str) : Prop := Forall no_open (removelast vs).

(** A value of the type of a field. *)
Definition in_Z (lo hi z : Z) : Prop := lo <= z < hi.
Inductive has_type : ctx_ty -> fval -> Prop :=
| ht_str s : has_type TStr (FStr s)
| ht_usize z : in_Z 0 (2 ^ 64) z -> has_type TUsize (FInt z)
| ht_u64 z : in_Z 0 (2 ^ 64) z -> has_type TU64 (FInt z)
| ht_i32 z : in_Z (- 2 ^ 31) (2 ^ 31) z -> has_type TI32 (FInt z)
| ht_int z : in_Z (- 2 ^ 63) (2 ^ 63) z -> has_type TNum (FNum (NInt z))
| ht_big z : ~ in_Z (- 2 ^ 63) (2 ^ 63) z -> has_type TNum (FNum (NBig z))
| ht_float f : has_type TNum (FNum (NFloat f))
| ht_numstr s : has_type TNum (FNum (NStr s))
| ht_len z : in_Z 0 (2 ^ 64) z -> has_type TOptUsize (FOptInt (Some z))
| ht_more : has_type TOptUsize (FOptInt None)
| ht_obj v : v <> PNone -> has_type TOptObj (FOptObj (Some v))
| ht_none : has_type TOptObj (FOptObj None).

(** A limit beyond 64 bits. *)
Definition small (f : fval) : Prop := match f with FNum (NBig _) => False | _ => True end.

(** A dictionary whose keys are distinct strings. *)
Definition str_dict (d : list (pyval * pyval)) : Prop :=
  exists names, NoDup names /\ map fst d = map PStr names.

(** The text a field's value has in a message. *)
Inductive text_of (show_float : f64 -> str) (py_str : pyval -> str) : fval -> str -> Prop :=
| to_str s : text_of _ _ (FStr s) s
| to_int z : text_of _ _ (FInt z) (dec_Z z)
| to_num z : text_of _ _ (FNum (NInt z)) (dec_Z z)
| to_big z : text_of _ _ (FNum (NBig z)) (dec_Z z)
| to_float f : text_of _ _ (FNum (NFloat f)) (show_float f)
| to_numstr s : text_of _ _ (FNum (NStr s)) s
| to_len z : text_of _ _ (FOptInt (Some z)) (dec_Z z)
| to_more : text_of _ _ (FOptInt None) (lit "more")
| to_obj v : text_of _ _ (FOptObj (Some v)) (py_str v)
| to_none : text_of _ _ (FOptObj None) (lit "None").

(** The value shown for a placeholder of a known error: the field of that name, or
    the plural "s" of a limit other than 1. *)
Inductive shows (show_float : f64 -> str) (py_str : pyval -> str) (r : row) (vals : list fval) : str -> str -> Prop :=
| sh_field k f t :
    In (k, f) (combine (map fst (r_fields r)) vals) -> text_of show_float py_str f t -> shows show_float py_str r vals k t
| sh_one k : In (k, FInt 1) (combine (map fst (r_fields r)) vals) -> r_plural r = Some k ->
    shows show_float py_str r vals (lit "expected_plural") []
| sh_many k z : In (k, FInt z) (combine (map fst (r_fields r)) vals) -> r_plural r = Some k -> z <> 1 ->
    shows show_float py_str r vals (lit "expected_plural") (lit "s").

(** The JSON object of a dictionary of [errors()]. *)
Inductive json_of (infer : pyval -> option json) : details -> json -> Prop :=
| jo d loc inp ctx :
    d_loc d = PTuple (map loc_item_py loc) ->
    match d_input d with None => inp = [] | Some v => exists j, infer v = Some j /\ inp = [(lit "input", j)] end ->
    match d_ctx d with None => ctx = [] | Some c => exists j, infer (PDict c) = Some j /\ ctx = [(lit "ctx", j)] end ->
    json_of infer d
      (JObj ([(lit "type", JStr (d_type d));
              (lit "loc", JArr (map (fun i => match i with LStr s => JStr s | LInt z => JInt z end) loc));
              (lit "msg", JStr (d_msg d))]
             ++ inp ++ ctx
             ++ match d_url d with Some u => [(lit "url", JStr u)] | None => [] end)).

(** The lines of [str(error)] for a dictionary of [errors()], inputs hidden. *)
Definition item_text (v : pyval) : str :=
  match v with
  | PStr s => if existsb (N.eqb 46) s then lit "`" ++ s ++ lit "`" else s
  | PInt z => dec_Z z
  | _ => []
  end.
Definition place_text (loc : pyval) : str :=
  match loc with PTuple ((_ :: _) as l) => join (lit ".") (map item_text l) ++ newline | _ => [] end.
Definition block (d : details) : str :=
  place_text (d_loc d) ++ lit "  " ++ d_msg d ++ lit " [type=" ++ d_type d ++ lit "]"
  ++ match d_url d with Some u => newline ++ lit "    For further information visit " ++ u | None => [] end.
Definition report (title : str) (ds : list details) : str :=
  dec_N (N.of_nat (length ds)) ++ lit " validation error" ++ (match ds with [_] => [] | _ => lit "s" end)
  ++ lit " for " ++ title ++ newline ++ join newline (map block ds).

(** A location as validators build it: the items are strings and 64-bit ints, and a
    stored list is not empty. *)
Definition loc_ok (l : location) : Prop :=
  match l with
  | LEmpty => True
  | LRev l => l <> [] /\ Forall (fun i => match i with LInt z => in_Z (- 2 ^ 63) (2 ^ 63) z | LStr _ => True end) l
  end.

(** The known errors that validation produces: those the validators make, with the
    fields of the error's type, and those made from a name and a context
    (PydanticKnownError, custom-error schemas, from_exception_data). *)
Inductive raised (as_index : pyval -> option Z) (as_float : pyval -> option f64) : error_type -> Prop :=
| raised_validator r vals :
    In r table -> Forall2 has_type (map snd (r_fields r)) vals -> Forall small vals ->
    raised as_index as_float (Known r vals None)
| raised_named t ctx e :
    match ctx with Some d => str_dict d | None => True end ->
    new_error as_index as_float t ctx = Ok e -> raised as_index as_float e.

(** The same but for what the errors were raised on. *)
Definition same_but_input (a b : line) : Prop := l_type a = l_type b /\ l_loc a = l_loc b.
