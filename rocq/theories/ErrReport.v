(** Error types, their messages, and the reports of a [ValidationError]:
    /repo/src/errors/types.rs, value_exception.rs, validation_exception.rs and
    location.rs.  The table of error types is ErrTable.v. *)
From Coq Require Import List NArith ZArith Bool.
From Verif Require Import Base Float64 Values Decimal VState ErrTable.
Import ListNotations.
Open Scope Z_scope.

(** The result of a call that may raise. *)
Inductive exn := TypeError | KeyError | ValueErr.
Inductive res (A : Type) := Ok (a : A) | Raise (x : exn).
Arguments Ok {A}. Arguments Raise {A}.
Definition bind {A B} (r : res A) (f : A -> res B) : res B := match r with Ok a => f a | Raise x => Raise x end.
Fixpoint map_res {A B} (f : A -> res B) (l : list A) : res (list B) :=
  match l with
  | [] => Ok []
  | a :: l' => bind (f a) (fun b => bind (map_res f l') (fun bs => Ok (b :: bs)))
  end.

(** The name without its subclass wrappers ([downcast] and the C conversions look
    through them). *)
Fixpoint bare (v : pyval) : pyval := match v with PSub _ v' => bare v' | _ => v end.

(** [d.update(e)], [d.del_item(k)] (CPython, trusted); [d.get_item(k)] is
    [dict_get]. *)
Definition dupdate (e d : list (pyval * pyval)) : list (pyval * pyval) :=
  fold_left (fun d kv => dict_set (fst kv) (snd kv) d) e d.
Fixpoint ddel (k : pyval) (d : list (pyval * pyval)) : list (pyval * pyval) :=
  match d with [] => [] | (k', v) :: d' => if py_eq k' k then d' else (k', v) :: ddel k d' end.

(** [str::replace] for a non-empty pattern: leftmost matches, not overlapping
    (Rust's standard library, trusted). *)
Fixpoint starts (p s : str) : bool :=
  match p, s with
  | [], _ => true
  | a :: p', b :: s' => N.eqb a b && starts p' s'
  | _ :: _, [] => false
  end.
Fixpoint replace_from (p v : str) (skip : nat) (s : str) : str :=
  match s with
  | [] => []
  | c :: s' =>
      match skip with
      | S n => replace_from p v n s'
      | O => if starts p s then v ++ replace_from p v (length p - 1)%nat s' else c :: replace_from p v O s'
      end
  end.
Definition replace (p v s : str) : str := replace_from p v O s.

(** types.rs:90-91: strum's [serialize_all = "snake_case"] on a name of words that
    start with one capital each (every variant's name is of this kind). *)
Definition is_upper (c : N) : bool := (65 <=? c)%N && (c <=? 90)%N.
Fixpoint snake_rest (s : str) : str :=
  match s with
  | [] => []
  | c :: s' => if is_upper c then 95%N :: (c + 32)%N :: snake_rest s' else c :: snake_rest s'
  end.
Definition snake (s : str) : str :=
  match s with [] => [] | c :: s' => (if is_upper c then (c + 32)%N else c) :: snake_rest s' end.

(** types.rs:771-777 [Number]; the field values of an error. *)
Inductive number := NInt (z : Z) | NBig (z : Z) | NFloat (f : f64) | NStr (s : str).
Inductive fval :=
| FStr (s : str)
| FInt (z : Z)
| FNum (n : number)
| FOptInt (z : option Z)
| FOptObj (v : option pyval).

(** types.rs:92-99: a variant with its fields and its [context]; [CustomError]
    with its two fields and its [context]. *)
Inductive error_type :=
| Known (r : row) (vals : list fval) (context : option (list (pyval * pyval)))
| Custom (ty template : str) (context : option (list (pyval * pyval))).

(** input_type of a [ValidationError] (input_abstract.rs:18-22). *)
Inductive itype := ITPython | ITJson | ITString.

(** validation_exception.rs:425-429 [PyLineError] and 33-38 [ValidationError]. *)
Record line := { l_type : error_type; l_loc : location; l_input : pyval }.
Record verror := { v_lines : list line; v_title : pyval; v_input_type : itype; v_hide_input : bool }.

(** The dictionaries of [errors()] (validation_exception.rs:492-523), keyed by
    their string keys; the optional ones may be absent. *)
Record details := {
  d_type : str; d_loc : pyval; d_msg : str;
  d_input : option pyval; d_ctx : option (list (pyval * pyval)); d_url : option str
}.

(** The dictionaries given to [from_exception_data]: [type] is a string, a
    [PydanticCustomError] or something else. *)
Inductive raw_type := RStr (s : str) | RCustom (ty template : str) (context : option (list (pyval * pyval))) | ROther.
Record line_data := { i_type : option raw_type; i_ctx : option pyval; i_loc : option pyval; i_input : option pyval }.

Section ErrReport.
(** CPython and Rust's formatting, trusted: [__index__] and [__float__] of objects
    of user classes (and Decimal); [Display] of f64; [str(v)]; [repr(v)] as
    [safe_repr] gives it; the name of a value's type; the abbreviation of a long
    text (tools.rs:191-204, Truncate.v); the JSON of a value as [serialize_infer]
    writes it ([None] if it raises). *)
Variable as_index : pyval -> option Z.
Variable as_float : pyval -> option f64.
Variable show_float : f64 -> str.
Variable py_str : pyval -> str.
Variable py_repr : pyval -> str.
Variable type_name : pyval -> option str.
Variable abbreviate : str -> str.
Variable infer_json : pyval -> option json.
(** The text of the [TypeError] of a failed downcast. *)
Variable exn_text : str.

(** [obj.extract::<iN>()] (pyo3): the value of [__index__], if it is in range. *)
Definition in_range (lo hi z : Z) : option Z := if (lo <=? z) && (z <? hi) then Some z else None.
Definition index_of (v : pyval) : option Z :=
  match bare v with
  | PBool b => Some (if b then 1 else 0)
  | PInt z => Some z
  | PObj _ _ => as_index v
  | _ => None
  end.
Definition extract_int (lo hi : Z) (v : pyval) : option Z :=
  match index_of v with Some z => in_range lo hi z | None => None end.
(** tools.rs:131-141 [extract_i64]. *)
Definition extract_i64 (v : pyval) : option Z := extract_int (- 2 ^ 63) (2 ^ 63) v.
(** [obj.extract::<f64>()] (pyo3, PyFloat_AsDouble): an int that overflows raises. *)
Definition extract_f64 (v : pyval) : option f64 :=
  match bare v with
  | PFloat f => Some f
  | PBool b => Some (f_of_Z (if b then 1 else 0))
  | PInt z => if f_is_finite (f_of_Z z) then Some (f_of_Z z) else None
  | PObj _ _ => as_float v
  | _ => None
  end.
Definition extract_string (v : pyval) : option str := match bare v with PStr s => Some s | _ => None end.

(** types.rs:805-817 [impl FromPyObject for Number]. *)
Definition extract_number (v : pyval) : option number :=
  match extract_i64 v with
  | Some z => Some (NInt z)
  | None =>
      match extract_f64 v with
      | Some f => Some (NFloat f)
      | None => match extract_string v with Some s => Some (NStr s) | None => None end
      end
  end.

(** The extraction of each field type (pyo3); [Option<T>] takes [None]. *)
Definition extract_field (t : ctx_ty) (v : pyval) : option fval :=
  match t with
  | TStr => option_map FStr (extract_string v)
  | TUsize | TU64 => option_map FInt (extract_int 0 (2 ^ 64) v)
  | TI32 => option_map FInt (extract_int (- 2 ^ 31) (2 ^ 31) v)
  | TNum => option_map FNum (extract_number v)
  | TOptUsize => match v with PNone => Some (FOptInt None) | _ => option_map (fun z => FOptInt (Some z)) (extract_int 0 (2 ^ 64) v) end
  | TOptObj => match v with PNone => Some (FOptObj None) | _ => Some (FOptObj (Some v)) end
  end.

(** The conversion of a field to Python (pyo3; types.rs:771 derives [IntoPyObject]). *)
Definition field_to_py (f : fval) : pyval :=
  match f with
  | FStr s => PStr s
  | FInt z => PInt z
  | FNum (NInt z) | FNum (NBig z) => PInt z
  | FNum (NFloat x) => PFloat x
  | FNum (NStr s) => PStr s
  | FOptInt (Some z) => PInt z
  | FOptInt None => PNone
  | FOptObj (Some v) => v
  | FOptObj None => PNone
  end.

(** types.rs:618-623 [type_string]. *)
Definition row_type (r : row) : str := snake (r_name r).
Definition type_string (e : error_type) : str :=
  match e with Known r _ _ => row_type r | Custom t _ _ => t end.

(** types.rs:608-616 [build_lookup], as the search it serves: [CustomError] is not
    in it. *)
Definition lookup (t : str) : option row := find (fun r => str_eqb (row_type r) t) table.
(** types.rs:603-606 [valid_type]. *)
Definition valid_type (t : str) : bool := match lookup t with Some _ => true | None => false end.

(** types.rs:45-57 [field_from_context]. *)
Definition field_from_context (ctx : option (list (pyval * pyval))) (k : str) (t : ctx_ty) : res fval :=
  match ctx with
  | None => Raise TypeError
  | Some d =>
      match dict_get (PStr k) d with
      | None => Raise TypeError
      | Some v => match extract_field t v with Some f => Ok f | None => Raise TypeError end
      end
  end.

(** types.rs:101-119 [ErrorType::new]. *)
Definition new_error (t : str) (ctx : option (list (pyval * pyval))) : res error_type :=
  match lookup t with
  | None => Raise KeyError
  | Some r =>
      bind (map_res (fun kt => field_from_context ctx (fst kt) (snd kt)) (r_fields r)) (fun vals => Ok (Known r vals ctx))
  end.

(** types.rs:121-138 [py_dict_update_ctx] and 749-769 [py_dict]. *)
Definition fields_dict (r : row) (vals : list fval) : list (pyval * pyval) :=
  fold_left (fun d kv => dict_set (PStr (fst kv)) (field_to_py (snd kv)) d) (combine (map fst (r_fields r)) vals) [].
Definition py_dict (e : error_type) : option (list (pyval * pyval)) :=
  match e with
  | Custom t m (Some c) =>
      let d := dupdate c (dict_set (PStr (lit "message_template")) (PStr m) (dict_set (PStr (lit "error_type")) (PStr t) [])) in
      Some (ddel (PStr (lit "message_template")) (ddel (PStr (lit "error_type")) d))
  | Custom _ _ None => None
  | Known r vals (Some c) => Some (dupdate c (fields_dict r vals))
  | Known r vals None => match fields_dict r vals with [] => None | d => Some d end
  end.

(** types.rs:819-828 [Display for Number]; the text [render_message] puts for a
    field (types.rs:625-747: "more" for an absent [actual_length], "None" for an
    absent [error]). *)
Definition show_number (n : number) : str :=
  match n with NInt z | NBig z => dec_Z z | NFloat f => show_float f | NStr s => s end.
Definition show_field (f : fval) : str :=
  match f with
  | FStr s => s
  | FInt z => dec_Z z
  | FNum n => show_number n
  | FOptInt (Some z) => dec_Z z
  | FOptInt None => lit "more"
  | FOptObj (Some v) => py_str v
  | FOptObj None => lit "None"
  end.
(** types.rs:458-464 [plural_s]. *)
Definition plural_s (f : option fval) : str :=
  match f with Some (FInt z) => if z =? 1 then lit "" else lit "s" | _ => lit "s" end.

(** The field named [k]. *)
Fixpoint field_named (k : str) (fs : list (str * ctx_ty)) (vals : list fval) : option fval :=
  match fs, vals with
  | (k', _) :: fs', v :: vals' => if str_eqb k' k then Some v else field_named k fs' vals'
  | _, _ => None
  end.
(** The text for a rendered key of [render_message]. *)
Definition shown (r : row) (vals : list fval) (k : str) : str :=
  if str_eqb k (lit "expected_plural") then
    plural_s (match r_plural r with Some k' => field_named k' (r_fields r) vals | None => None end)
  else match field_named k (r_fields r) vals with Some f => show_field f | None => [] end.

(** [concat!("{", stringify!($value), "}")] and [format!("{{{}}}", key)]. *)
Definition hole (k : str) : str := 123%N :: k ++ [125%N].

(** types.rs:584-601 and 625-630: the template of the input type. *)
Definition template (it : itype) (r : row) : str := match it with ITPython => r_py r | _ => r_json r end.

(** value_exception.rs:119-137 [format_message]. *)
Definition show_ctx_value (v : pyval) : str :=
  match bare v with
  | PStr s => s
  | _ => match extract_i64 v with Some z => dec_Z z | None => py_str v end
  end.
Fixpoint format_message (message : str) (ctx : list (pyval * pyval)) : res str :=
  match ctx with
  | [] => Ok message
  | (k, v) :: ctx' =>
      match bare k with
      | PStr k' => format_message (replace (hole k') (show_ctx_value v) message) ctx'
      | _ => Raise TypeError
      end
  end.

(** types.rs:436-455 [render!] and [to_string_render!], 625-747 [render_message]. *)
Definition render_message (it : itype) (e : error_type) : res str :=
  match e with
  | Known r vals _ => Ok (fold_left (fun m k => replace (hole k) (shown r vals k) m) (r_render r) (template it r))
  | Custom _ m None => Ok m
  | Custom _ m (Some c) => format_message m c
  end.

(** location.rs:108-122 [IntoPyObject for &Location]. *)
Definition loc_items (l : location) : list loc_item := match l with LEmpty => [] | LRev l => rev l end.
Definition loc_item_py (i : loc_item) : pyval := match i with LStr s => PStr s | LInt z => PInt z end.
Definition loc_py (l : location) : pyval := PTuple (map loc_item_py (loc_items l)).

(** input_python.rs:60-70 [From<&PyAny> for LocItem]. *)
Definition loc_item_of_py (v : pyval) : loc_item :=
  match bare v with
  | PStr s => LStr s
  | _ => match extract_i64 v with Some z => LInt z | None => LStr (py_repr v) end
  end.
(** location.rs:172-200 [TryFrom<Option<&PyAny>> for Location]. *)
Definition loc_of_py (v : option pyval) : res location :=
  match v with
  | None => Ok LEmpty
  | Some v =>
      match bare v with
      | PTuple l | PList l => match l with [] => Ok LEmpty | _ => Ok (LRev (rev (map loc_item_of_py l))) end
      | _ => Raise TypeError
      end
  end.

(** validation_exception.rs:488-490 [get_error_url]. *)
Definition error_url (prefix : str) (e : error_type) : str := prefix ++ type_string e.
Definition is_custom (e : error_type) : bool := match e with Custom _ _ _ => true | Known _ _ _ => false end.

(** validation_exception.rs:492-523 [as_dict]. *)
Definition as_dict (prefix : option str) (include_context : bool) (it : itype) (include_input : bool) (l : line) : res details :=
  bind (render_message it (l_type l)) (fun msg =>
  Ok {| d_type := type_string (l_type l);
        d_loc := loc_py (l_loc l);
        d_msg := msg;
        d_input := if include_input then Some (l_input l) else None;
        d_ctx := if include_context then py_dict (l_type l) else None;
        d_url := match prefix with
                 | Some p => if is_custom (l_type l) then None else Some (error_url p (l_type l))
                 | None => None
                 end |}).

(** validation_exception.rs:299-332 [errors]; [url] is the prefix of the
    documentation's address (232-247), which depends on pydantic's version. *)
Definition errors (url : str) (include_url include_context include_input : bool) (v : verror) : res (list details) :=
  map_res (as_dict (if include_url then Some url else None) include_context (v_input_type v) include_input) (v_lines v).

(** validation_exception.rs:294-296 [error_count]. *)
Definition error_count (v : verror) : nat := length (v_lines v).

(** location.rs:72-82, 154-170 [Serialize for LocItem] and [Location]. *)
Definition loc_item_json (i : loc_item) : json := match i with LStr s => JStr s | LInt z => JInt z end.
Definition loc_json (l : location) : json := JArr (map loc_item_json (loc_items l)).

(** validation_exception.rs:625-664 [PyLineErrorSerializer]. *)
Definition line_json (prefix : option str) (include_context : bool) (it : itype) (include_input : bool) (l : line) : res json :=
  bind (match render_message it (l_type l) with Ok m => Ok m | Raise _ => Raise ValueErr end) (fun msg =>
  bind (if include_input then
          match infer_json (l_input l) with Some j => Ok [(lit "input", j)] | None => Raise ValueErr end
        else Ok []) (fun inp =>
  bind (if include_context then
          match py_dict (l_type l) with
          | Some d => match infer_json (PDict d) with Some j => Ok [(lit "ctx", j)] | None => Raise ValueErr end
          | None => Ok []
          end
        else Ok []) (fun ctx =>
  Ok (JObj ([(lit "type", JStr (type_string (l_type l))); (lit "loc", loc_json (l_loc l)); (lit "msg", JStr msg)]
            ++ inp ++ ctx
            ++ match prefix with Some p => [(lit "url", JStr (error_url p (l_type l)))] | None => [] end))))).
(** validation_exception.rs:335-382 [json], 593-613 [ValidationErrorSerializer]: the
    JSON value written. *)
Definition to_json (url : str) (include_url include_context include_input : bool) (v : verror) : res json :=
  bind (map_res (line_json (if include_url then Some url else None) include_context (v_input_type v) include_input) (v_lines v))
    (fun l => Ok (JArr l)).

(** location.rs:26-34 [Display for LocItem] and 124-134 [Display for Location]. *)
Definition show_loc_item (i : loc_item) : str :=
  match i with
  | LStr s => if existsb (N.eqb 46) s then 96%N :: s ++ [96%N] else s
  | LInt z => dec_Z z
  end.
Fixpoint join (sep : str) (l : list str) : str :=
  match l with [] => [] | [x] => x | x :: l' => x ++ sep ++ join sep l' end.
Definition newline : str := [10%N].
Definition show_loc (l : location) : str :=
  match l with LEmpty => [] | LRev l => join (lit ".") (map show_loc_item (rev l)) ++ newline end.

(** validation_exception.rs:525-568 [pretty]; [exn_text] is the text of the
    exception raised by [render_message]. *)
Definition pretty (it : itype) (prefix : option str) (hide_input : bool) (l : line) : str :=
  let message := match render_message it (l_type l) with Ok m => m | Raise _ => lit "(error rendering message: " ++ exn_text ++ lit ")" end in
  show_loc (l_loc l) ++ lit "  " ++ message ++ lit " [type=" ++ type_string (l_type l)
  ++ (if hide_input then []
      else lit ", input_value=" ++ abbreviate (py_repr (l_input l))
           ++ match type_name (l_input l) with Some t => lit ", input_type=" ++ t | None => [] end)
  ++ lit "]"
  ++ match prefix with
     | Some p => if is_custom (l_type l) then [] else newline ++ lit "    For further information visit " ++ error_url p (l_type l)
     | None => []
     end.

(** validation_exception.rs:95-106 [display] without a prefix, 384-390 [__repr__] and
    [__str__]; [None] is the panic of [unwrap] for a title that is not a string. *)
Definition display (url : str) (env_url : bool) (v : verror) : option str :=
  match bare (v_title v) with
  | PStr title =>
      Some (dec_N (N.of_nat (error_count v)) ++ lit " validation error"
            ++ (if Nat.eqb (error_count v) 1 then [] else lit "s") ++ lit " for " ++ title ++ newline
            ++ join newline (map (pretty (v_input_type v) (if env_url then Some url else None) (v_hide_input v)) (v_lines v)))
  | _ => None
  end.

(** validation_exception.rs:442-477 [TryFrom<&PyAny> for PyLineError]. *)
Definition line_of_data (i : line_data) : res line :=
  match i_type i with
  | None => Raise KeyError
  | Some rt =>
      bind (match rt with
            | RStr t =>
                match i_ctx i with
                | None => new_error t None
                | Some c => match bare c with PDict d => new_error t (Some d) | _ => Raise TypeError end
                end
            | RCustom t m c => Ok (Custom t m c)
            | ROther => Raise TypeError
            end) (fun e =>
      bind (loc_of_py (i_loc i)) (fun loc =>
      Ok {| l_type := e; l_loc := loc; l_input := match i_input i with Some v => v | None => PNone end |}))
  end.

(** input_abstract.rs:24-50: the names of the input types. *)
Definition itype_name (t : itype) : str := match t with ITPython => lit "python" | ITJson => lit "json" | ITString => lit "string" end.
Definition itype_of_name (s : str) : res itype :=
  if str_eqb s (lit "python") then Ok ITPython
  else if str_eqb s (lit "json") then Ok ITJson
  else if str_eqb s (lit "string") then Ok ITString
  else Raise ValueErr.

(** validation_exception.rs:271-288 [from_exception_data]. *)
Definition from_exception_data (title : pyval) (ls : list line_data) (input_type : str) (hide_input : bool) : res verror :=
  bind (map_res line_of_data ls) (fun lines =>
  bind (itype_of_name input_type) (fun it =>
  Ok {| v_lines := lines; v_title := title; v_input_type := it; v_hide_input := hide_input |})).

(** A dictionary of [errors()] read by [from_exception_data]. *)
Definition data_of_details (d : details) : line_data :=
  {| i_type := Some (RStr (d_type d)); i_ctx := option_map PDict (d_ctx d); i_loc := Some (d_loc d); i_input := d_input d |}.

(** validation_exception.rs:392-405 [__reduce__], and what [pickle] and [copy] then
    do: call [from_exception_data] with its arguments.  Simplification: the title,
    the inputs and the context values are given back as they are. *)
Definition rebuild (url : str) (env_url : bool) (v : verror) : res verror :=
  bind (errors url env_url true true v) (fun ds =>
  from_exception_data (v_title v) (map data_of_details ds) (itype_name (v_input_type v)) (v_hide_input v)).
End ErrReport.
