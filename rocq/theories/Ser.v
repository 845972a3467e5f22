(** Model of the serializers: to Python objects, to a JSON value (the calls made to
    serde, whose text is the subject of JsonText.v) and to an object key
    (src/serializers/infer.rs, fields.rs, computed_fields.rs and
    src/serializers/type_serializers/). *)
From Coq Require Import List NArith ZArith Bool.
From Verif Require Import Base Float64 Utf8 Decimal Values BytesCodec Filter LookupKey Classes JsonText SerBase.
Import ListNotations.
From Verif Require Assign.
Open Scope nat_scope.

Notation pydict := (list (pyval * pyval)) (only parsing).
(** The two filters given for a value: include and exclude. *)
Notation incl := (option fval) (only parsing).

(** shared.rs:278-330 [TypeSerializer].  [z_main] is what a dataclass uses of a fields
    serializer (dataclass.rs:150-160, 196-209). *)
Record fmain := {
  m_py : list (pyval * option pyval) -> incl -> incl -> extra -> M pydict;
  m_js : list (pyval * option pyval) -> incl -> incl -> extra -> M (list (str * json));
  m_comp_py : option pyval -> pydict -> incl -> incl -> extra -> M pydict;
  m_comp_js : option pyval -> incl -> incl -> extra -> M (list (str * json)) }.
Record sz := {
  z_py : pyval -> incl -> incl -> extra -> M pyval;
  z_js : pyval -> incl -> incl -> extra -> M json;
  z_key : pyval -> extra -> M str;
  z_retry : bool; z_default : option pyval; z_main : option fmain }.

(** What a serializer can call: type inference and the definitions, one level of the
    recursion guard further down. *)
Record level := {
  l_py : pyval -> incl -> incl -> extra -> M pyval;
  l_js : pyval -> incl -> incl -> extra -> M json;
  l_key : pyval -> extra -> M str;
  l_def_py : nat -> pyval -> incl -> incl -> extra -> M pyval;
  l_def_js : nat -> pyval -> incl -> incl -> extra -> M json;
  l_def_key : nat -> pyval -> extra -> M str }.

(** [PyDict::set_item] and [PySet::new], which hash their argument. *)
Definition put (k v : pyval) (d : pydict) : M pydict := if hashable k then ret (dict_set k v d) else fail EOther.
Definition new_set (l : list pyval) : M (list pyval) :=
  if forallb hashable l then ret (fold_left (fun s x => set_add x s) l []) else fail EOther.

Definition zlen {A} (l : list A) : option Z := Some (Z.of_nat (length l)).

(** The loop over the items of a list or tuple with an index filter:
    infer.rs:72-90 and 380-399, list.rs:59-75 and 95-115. *)
Fixpoint filtered {A} (f : schema_filter) (inc exc : incl) (len : option Z)
  (each : pyval -> incl -> incl -> M A) (i : nat) (l : list pyval) : M (list A) :=
  match l with
  | [] => ret []
  | v :: l' =>
      o <- res_opt (index_filter f (Z.of_nat i) inc exc len) ;;
      match o with
      | None => filtered f inc exc len each (S i) l'
      | Some (ni, ne) =>
          a <- each v ni ne ;;
          r <- filtered f inc exc len each (S i) l' ;;
          ret (a :: r)
      end
  end.
(** The loop over the items of a set. *)
Fixpoint mapM {A B} (each : A -> M B) (l : list A) : M (list B) :=
  match l with
  | [] => ret []
  | v :: l' => a <- each v ;; r <- mapM each l' ;; ret (a :: r)
  end.

(** The loop over the items of a dict with a key filter: infer.rs:700-745,
    dict.rs:86-100 and 125-143. *)
Fixpoint pairs_py (f : schema_filter) (inc exc : incl) (key : pyval -> M pyval)
  (each : pyval -> incl -> incl -> M pyval) (l : list (pyval * option pyval)) (d : pydict) : M pydict :=
  match l with
  | [] => ret d
  | (k, v) :: l' =>
      v <- opt v ;;
      o <- res_opt (filter f (key_of k) inc exc) ;;
      match o with
      | None => pairs_py f inc exc key each l' d
      | Some (ni, ne) =>
          k <- key k ;;
          v <- each v ni ne ;;
          d <- put k v d ;;
          pairs_py f inc exc key each l' d
      end
  end.
Fixpoint pairs_js (f : schema_filter) (inc exc : incl) (key : pyval -> M str)
  (each : pyval -> incl -> incl -> M json) (l : list (pyval * option pyval)) : M (list (str * json)) :=
  match l with
  | [] => ret []
  | (k, v) :: l' =>
      v <- opt v ;;
      o <- res_opt (filter f (key_of k) inc exc) ;;
      match o with
      | None => pairs_js f inc exc key each l'
      | Some (ni, ne) =>
          k <- key k ;;
          j <- each v ni ne ;;
          r <- pairs_js f inc exc key each l' ;;
          ret ((k, j) :: r)
      end
  end.
Definition items (d : pydict) : list (pyval * option pyval) := map (fun kv => (fst kv, Some (snd kv))) d.

(** tuple.rs:254-279 [KeyBuilder]. *)
Definition key_push (st : str * bool) (k : str) : str * bool :=
  ((if snd st then fst st ++ k else fst st ++ [44%N] ++ k), false).
Definition key_join (ks : list str) : str := fst (fold_left key_push ks ([], true)).

Definition nonfinite (f : f64) : bool := f_is_nan f || f_is_infinite f.
(** float.rs:34-50 [serialize_f64]. *)
Definition float_js (m : inf_nan_mode) (f : f64) : json :=
  if nonfinite f then
    match m with
    | INull => JNull
    | IConstants => JFloat f
    | IStrings =>
        JStr (if f_is_nan f then lit "NaN"
              else match f with S754_infinity false => lit "Infinity" | _ => lit "-Infinity" end)
    end
  else JFloat f.

Section Ser.
Variable E : env.

Definition str_key (v : pyval) : M str := s <- opt (py_str E v) ;; ret (lossy s).
Definition bool_key (v : pyval) : str := match base v with PBool true => lit "true" | _ => lit "false" end.
Definition none_key : str := lit "None".
(** infer.rs:575-583 [serialize_unknown], when str() raises: the name of the class is not
    modelled. *)
Definition unknown_text (v : pyval) : str :=
  match py_str E v with Some s => lossy s | None => lit "<Unserializable object>" end.

(** shared.rs:383-408 [any_dataclass_iter]: the fields of a dataclass instance. *)
Definition dataclass_items (v : pyval) : list (pyval * option pyval) :=
  match class_of v with
  | Some c =>
      match ci_dataclass (e_class E c) with
      | Some names => map (fun n => (PStr n, get_attr E v n)) names
      | None => []
      end
  | None => []
  end.
Definition own_serializer (v : pyval) : option (ser * config) :=
  match class_of v with Some c => ci_ser (e_class E c) | None => None end.

(** infer.rs:590-698 [infer_json_key_known]; [again] is the recursive call,
    [hashed_key] the case of instances (665-670). *)
Definition hashed_key (v : pyval) : M str := if e_hash E v then str_key v else fail EOther.
Definition infer_key_body (again : pyval -> extra -> M str) (v : pyval) (x : extra) : M str :=
  match get_type E v with
  | TNone => ret none_key
  | TInt | TIntSub => str_key v
  | TFloat | TFloatSub =>
      f <- opt (get_float v) ;;
      if nonfinite f && match c_inf_nan (x_config x) with INull => true | _ => false end then ret none_key else str_key v
  | TBool => ret (bool_key v)
  | TStr | TStrSub => s <- opt (down_str v) ;; to_str s
  | TBytes => b <- opt (down_bytes v) ;; opt (bytes_to_string (c_bytes (x_config x)) b)
  | TTuple => l <- opt (down_tuple v) ;; ks <- mapM (fun e => again e x) l ;; ret (key_join ks)
  | TList | TSet | TFrozenset | TDict => fail EOther
  | TDataclass | TPydantic => hashed_key v
  | TEnum => w <- opt (enum_value E v) ;; again w x
  | TUnknown =>
      match x_fallback x with
      | Some f => w <- opt (f v) ;; again w x
      | None => if x_serialize_unknown x then ret (unknown_text v) else fail EOther
      end
  end.

Section Step.
(** The level below: what is called once the guard of this call is entered.  [own_py] and
    [own_js] run the serializer of a class. *)
Variable L : level.
Variable own_py : ser -> pyval -> incl -> incl -> extra -> M pyval.
Variable own_js : ser -> pyval -> incl -> incl -> extra -> M json.

(** infer.rs:27-299 [infer_to_python_known], after the guard. *)
Definition infer_py_body (v : pyval) (inc exc : incl) (x : extra) : M pyval :=
  let seq l := filtered any_filter inc exc (zlen l) (fun e i e' => l_py L e i e' x) 0 l in
  let elems l := mapM (fun e => l_py L e None None x) l in
  let pairs l := pairs_py any_filter inc exc
                   (fun k => if x_json x then s <- l_key L k x ;; ret (PStr s) else ret k)
                   (fun e i e' => l_py L e i e' x) l [] in
  match get_type E v with
  | TNone | TBool | TInt | TStr => ret v
  | TIntSub => if x_json x then z <- opt (get_int v) ;; ret (PInt z) else ret v
  | TFloat | TFloatSub =>
      if x_json x then
        f <- opt (get_float v) ;;
        ret (if nonfinite f && match c_inf_nan (x_config x) with INull => true | _ => false end then PNone else PFloat f)
      else ret v
  | TStrSub => if x_json x then s <- opt (down_str v) ;; s <- to_str s ;; ret (PStr s) else ret v
  | TBytes =>
      if x_json x then b <- opt (down_bytes v) ;; s <- opt (bytes_to_string (c_bytes (x_config x)) b) ;; ret (PStr s) else ret v
  | TTuple => l <- opt (down_tuple v) ;; r <- seq l ;; ret (if x_json x then PList r else PTuple r)
  | TList => l <- opt (down_list v) ;; r <- seq l ;; ret (PList r)
  | TSet => l <- opt (down_set v) ;; r <- elems l ;; if x_json x then ret (PList r) else r <- new_set r ;; ret (PSet r)
  | TFrozenset =>
      l <- opt (down_frozenset v) ;; r <- elems l ;; if x_json x then ret (PList r) else r <- new_set r ;; ret (PFrozenSet r)
  | TDict => l <- opt (down_dict v) ;; d <- pairs (items l) ;; ret (PDict d)
  | TPydantic => sc <- opt (own_serializer v) ;; own_py (fst sc) v inc exc (nested_extra (snd sc) x)
  | TDataclass => d <- pairs (dataclass_items v) ;; ret (PDict d)
  | TEnum => if x_json x then w <- opt (enum_value E v) ;; l_py L w inc exc x else ret v
  | TUnknown =>
      match x_fallback x with
      | Some f => w <- opt (f v) ;; l_py L w inc exc x
      | None =>
          if x_json x then if x_serialize_unknown x then ret (PStr (unknown_text v)) else fail EOther else ret v
      end
  end.

(** infer.rs:348-566 [infer_serialize_known], after the guard. *)
Definition infer_js_body (v : pyval) (inc exc : incl) (x : extra) : M json :=
  let seq l := r <- filtered any_filter inc exc (zlen l) (fun e i e' => l_js L e i e' x) 0 l ;; ret (JArr r) in
  let elems l := r <- mapM (fun e => l_js L e inc exc x) l ;; ret (JArr r) in
  let pairs l := d <- pairs_js any_filter inc exc (fun k => l_key L k x) (fun e i e' => l_js L e i e' x) l ;; ret (JObj d) in
  match get_type E v with
  | TNone => ret JNull
  | TInt | TIntSub => z <- opt (get_int v) ;; ret (JInt z)
  | TBool => ret (JBool match v with PBool b => b | _ => false end)
  | TFloat | TFloatSub => f <- opt (get_float v) ;; ret (float_js (c_inf_nan (x_config x)) f)
  | TStr | TStrSub => s <- opt (down_str v) ;; s <- to_str s ;; ret (JStr s)
  | TBytes => b <- opt (down_bytes v) ;; s <- opt (bytes_to_string (c_bytes (x_config x)) b) ;; ret (JStr s)
  | TDict => l <- opt (down_dict v) ;; pairs (items l)
  | TList => l <- opt (down_list v) ;; seq l
  | TTuple => l <- opt (down_tuple v) ;; seq l
  | TSet => l <- opt (down_set v) ;; elems l
  | TFrozenset => l <- opt (down_frozenset v) ;; elems l
  | TPydantic => sc <- opt (own_serializer v) ;; own_js (fst sc) v inc exc (nested_extra (snd sc) x)
  | TDataclass => pairs (dataclass_items v)
  | TEnum => w <- opt (enum_value E v) ;; l_js L w inc exc x
  | TUnknown =>
      match x_fallback x with
      | Some f => w <- opt (f v) ;; l_js L w inc exc x
      | None => if x_serialize_unknown x then ret (JStr (unknown_text v)) else fail EOther
      end
  end.
End Step.

(** infer.rs:48-61: a failing guard gives the value itself in Python mode; 360-371: it
    gives an ellipsis when unknown types are accepted. *)
Definition guard_failed_py (v : pyval) (x : extra) : M pyval := if x_json x then fail EOther else ret v.
Definition guard_failed_js (x : extra) : M json := if x_serialize_unknown x then ret (JStr (lit "...")) else fail EOther.

(** shared.rs:284-301 [invalid_as_json_key]. *)
Definition invalid_key (L : level) (v : pyval) (x : extra) : M str :=
  match v with PNone => fail EOther | _ => _ <- on_fallback v x ;; l_key L v x end.

Definition fall_py (L : level) (v : pyval) (inc exc : incl) (x : extra) : M pyval := _ <- on_fallback v x ;; l_py L v inc exc x.
Definition fall_js (L : level) (v : pyval) (inc exc : incl) (x : extra) : M json := _ <- on_fallback v x ;; l_js L v inc exc x.
Definition fall_key (L : level) (v : pyval) (x : extra) : M str := _ <- on_fallback v x ;; l_key L v x.

Definition simple (py : pyval -> incl -> incl -> extra -> M pyval) (js : pyval -> incl -> incl -> extra -> M json)
  (key : pyval -> extra -> M str) (retry : bool) : sz :=
  {| z_py := py; z_js := js; z_key := key; z_retry := retry; z_default := None; z_main := None |}.

(** any.rs:41-71. *)
Definition any_ser (L : level) : sz := simple (l_py L) (l_js L) (l_key L) false.

(** simple.rs:38-87 [NoneSerializer]. *)
Definition none_ser (L : level) : sz :=
  simple (fun v inc exc x => match v with PNone => ret PNone | _ => fall_py L v inc exc x end)
         (fun v inc exc x => match v with PNone => ret JNull | _ => fall_js L v inc exc x end)
         (fun v x => match v with PNone => ret none_key | _ => fall_key L v x end) false.

(** simple.rs:89-177, for a subclass of the expected type. *)
Definition subclass_py (L : level) (conv : pyval -> option pyval) (v : pyval) (inc exc : incl) (x : extra) : M pyval :=
  if is_strict (x_check x) then fail EUnexpected
  else if x_json x then opt (conv v) else l_py L v inc exc x.
(** simple.rs:183 [IntSerializer]. *)
Definition int_ser (L : level) : sz :=
  simple (fun v inc exc x =>
            match is_int_type v with
            | Exact => ret v
            | Subclass => subclass_py L (fun v => match get_int v with Some z => Some (PInt z) | None => None end) v inc exc x
            | IsNot => fall_py L v inc exc x
            end)
         (fun v inc exc x => match get_int v with Some z => ret (JInt z) | None => fall_js L v inc exc x end)
         (fun v x => match is_int_type v with IsNot => fall_key L v x | _ => str_key v end) true.
(** simple.rs:194 [BoolSerializer]. *)
Definition bool_ser (L : level) : sz :=
  simple (fun v inc exc x => match is_bool_type v with Exact => ret v | _ => fall_py L v inc exc x end)
         (fun v inc exc x => match v with PBool b => ret (JBool b) | _ => fall_js L v inc exc x end)
         (fun v x => match is_bool_type v with Exact => ret (bool_key v) | _ => fall_key L v x end) false.
(** float.rs:67-117. *)
Definition float_ser (L : level) (m : inf_nan_mode) : sz :=
  simple (fun v inc exc x =>
            match is_float_type v with
            | Exact => ret v
            | Subclass => subclass_py L (fun v => match get_float v with Some f => Some (PFloat f) | None => None end) v inc exc x
            | IsNot => fall_py L v inc exc x
            end)
         (fun v inc exc x => match get_float v with Some f => ret (float_js m f) | None => fall_js L v inc exc x end)
         (fun v x => match is_float_type v with IsNot => fall_key L v x | _ => str_key v end) false.
(** string.rs:36-96. *)
Definition str_ser (L : level) : sz :=
  simple (fun v inc exc x =>
            match is_str_type v with
            | Exact => ret v
            | Subclass => if x_json x then s <- opt (down_str v) ;; s <- to_str s ;; ret (PStr s) else ret v
            | IsNot => fall_py L v inc exc x
            end)
         (fun v inc exc x => match down_str v with Some s => s <- to_str s ;; ret (JStr s) | None => fall_js L v inc exc x end)
         (fun v x => match down_str v with Some s => ret (lossy s) | None => fall_key L v x end) false.
(** bytes.rs:34-88. *)
Definition bytes_ser (L : level) (m : bytes_mode) : sz :=
  simple (fun v inc exc x =>
            match down_bytes v with
            | Some b => if x_json x then s <- opt (bytes_to_string m b) ;; ret (PStr s) else ret v
            | None => fall_py L v inc exc x
            end)
         (fun v inc exc x =>
            match down_bytes v with Some b => s <- opt (bytes_to_string m b) ;; ret (JStr s) | None => fall_js L v inc exc x end)
         (fun v x => match down_bytes v with Some b => opt (bytes_to_string m b) | None => fall_key L v x end) false.
(** nullable.rs:34-82. *)
Definition nullable_ser (s : sz) : sz :=
  simple (fun v inc exc x => match v with PNone => ret PNone | _ => z_py s v inc exc x end)
         (fun v inc exc x => match v with PNone => ret JNull | _ => z_js s v inc exc x end)
         (fun v x => match v with PNone => ret none_key | _ => z_key s v x end) (z_retry s).
(** with_default.rs:38-84. *)
Definition default_ser (d : option pyval) (s : sz) : sz :=
  {| z_py := z_py s; z_js := z_js s; z_key := z_key s; z_retry := z_retry s; z_default := d; z_main := None |}.
(** list.rs:51-134. *)
Definition list_ser (L : level) (f : schema_filter) (s : sz) : sz :=
  simple (fun v inc exc x =>
            match down_list v with
            | Some l => r <- filtered f inc exc (zlen l) (fun e i e' => z_py s e i e' x) 0 l ;; ret (PList r)
            | None => fall_py L v inc exc x
            end)
         (fun v inc exc x =>
            match down_list v with
            | Some l => r <- filtered f inc exc (zlen l) (fun e i e' => z_js s e i e' x) 0 l ;; ret (JArr r)
            | None => fall_js L v inc exc x
            end)
         (invalid_key L) (z_retry s).
(** set_frozenset.rs:50-115. *)
Definition set_ser (L : level) (down : pyval -> option (list pyval)) (mk : list pyval -> pyval) (s : sz) : sz :=
  simple (fun v inc exc x =>
            match down v with
            | Some l =>
                r <- mapM (fun e => z_py s e inc exc x) l ;;
                if x_json x then ret (PList r) else r <- new_set r ;; ret (mk r)
            | None => fall_py L v inc exc x
            end)
         (fun v inc exc x =>
            match down v with
            | Some l => r <- mapM (fun e => z_js s e inc exc x) l ;; ret (JArr r)
            | None => fall_js L v inc exc x
            end)
         (invalid_key L) false.
(** tuple.rs:190-250: the serializers of the items of a tuple of n items. *)
Definition tuple_serializers (L : level) (ss : list sz) (variadic : option nat) (n : nat) : list sz :=
  match variadic with
  | Some k => firstn k ss ++ repeat (nth k ss (any_ser L)) (n + 1 - length ss) ++ skipn (k + 1) ss
  | None => ss
  end.
Fixpoint zip_items {A} (f : schema_filter) (inc exc : incl) (len : option Z)
  (each : sz -> pyval -> incl -> incl -> M A) (i : nat) (ss : list sz) (l : list pyval) : M (list A) :=
  match ss, l with
  | s :: ss', v :: l' =>
      o <- res_opt (index_filter f (Z.of_nat i) inc exc len) ;;
      match o with
      | None => zip_items f inc exc len each (S i) ss' l'
      | Some (ni, ne) => a <- each s v ni ne ;; r <- zip_items f inc exc len each (S i) ss' l' ;; ret (a :: r)
      end
  | _, _ => ret []
  end.
(** tuple.rs:175-251 [for_each_tuple_item_and_serializer]. *)
Definition tuple_each {A} (L : level) (f : schema_filter) (ss : list sz) (variadic : option nat)
  (each : sz -> pyval -> incl -> incl -> M A) (inc exc : incl) (x : extra) (l : list pyval) : M (list A) :=
  let n := length l in
  match variadic with
  | Some _ => zip_items f inc exc (zlen l) each 0 (tuple_serializers L ss variadic n) l
  | None =>
      if is_strict (x_check x) && negb (Nat.eqb n (length ss)) then fail EUnexpected
      else
        r <- zip_items f inc exc (zlen l) each 0 ss l ;;
        match skipn (length ss) l with
        | [] => ret r
        | rest =>
            _ <- register WExtraItems x ;;
            r' <- filtered f inc exc (zlen l) (each (any_ser L)) (length ss) rest ;;
            ret (r ++ r')
        end
  end.
(** tuple.rs:62-159. *)
Definition tuple_ser (L : level) (f : schema_filter) (ss : list sz) (variadic : option nat) : sz :=
  simple (fun v inc exc x =>
            match down_tuple v with
            | Some l =>
                r <- tuple_each L f ss variadic (fun s e i e' => z_py s e i e' x) inc exc x l ;;
                ret (if x_json x then PList r else PTuple r)
            | None => fall_py L v inc exc x
            end)
         (fun v inc exc x =>
            match down_tuple v with
            | Some l => r <- tuple_each L f ss variadic (fun s e i e' => z_js s e i e' x) inc exc x l ;; ret (JArr r)
            | None => fall_js L v inc exc x
            end)
         (fun v x =>
            match down_tuple v with
            | Some l => ks <- tuple_each L f ss variadic (fun s e _ _ => z_key s e x) None None x l ;; ret (key_join ks)
            | None => fall_key L v x
            end) true.
(** dict.rs:74-153. *)
Definition dict_ser (L : level) (f : schema_filter) (k s : sz) : sz :=
  simple (fun v inc exc x =>
            match down_dict v with
            | Some l =>
                d <- pairs_py f inc exc
                       (fun a => if x_json x then t <- z_key k a x ;; ret (PStr t) else z_py k a None None x)
                       (fun e i e' => z_py s e i e' x) (items l) [] ;;
                ret (PDict d)
            | None => fall_py L v inc exc x
            end)
         (fun v inc exc x =>
            match down_dict v with
            | Some l => d <- pairs_js f inc exc (fun a => z_key k a x) (fun e i e' => z_js s e i e' x) (items l) ;; ret (JObj d)
            | None => fall_js L v inc exc x
            end)
         (invalid_key L) false.

(** fields.rs:54-73: the output key of a field; the key in the data is the field's name. *)
Definition out_key {S} (name : str) (f : field S) (x : extra) : str :=
  if by_alias_or x (f_by_alias f) then match f_alias f with Some a => a | None => name end else name.
(** fields.rs:75-84 [exclude_default]. *)
Definition is_default (v : pyval) (x : extra) (s : sz) : bool :=
  x_exclude_defaults x && match z_default s with Some d => py_eq v d | None => false end.
(** fields.rs:462-464. *)
Definition key_str (k : pyval) : M str := s <- opt (down_str k) ;; to_str s.

Section Fields.
Variable L : level.
Variable mode : fields_mode.
Variable fields : list (str * field sz).
Variable extras : option sz.
Variable comp : list (computed sz).

(** fields.rs:118-133. *)
Definition required_fields : nat := length (List.filter (fun f => f_required (snd f)) fields).
Definition used (o : option (field sz)) : nat := match o with Some f => if f_required f then 1 else 0 | None => 0 end.

(** fields.rs:159-210: the loop of [main_to_python], with the output so far and the number
    of required fields met. *)
Fixpoint main_py_loop (inc exc : incl) (x : extra) (l : list (pyval * option pyval)) (d : pydict) (n : nat) : M (pydict * nat) :=
  match l with
  | [] => ret (d, n)
  | (k, v) :: l' =>
      v <- opt v ;;
      ks <- key_str k ;;
      let fo := assoc ks fields in
      if x_exclude_none x && is_py_none v then main_py_loop inc exc x l' d (n + used fo)
      else
        o <- res_opt (filter any_filter (key_of k) inc exc) ;;
        match o with
        | None => main_py_loop inc exc x l' d n
        | Some (ni, ne) =>
            match fo with
            | Some f =>
                match f_ser f with
                | Some s =>
                    if is_default v x s then main_py_loop inc exc x l' d (n + used fo)
                    else
                      w <- z_py s v ni ne x ;;
                      d <- put (PStr (out_key ks f x)) w d ;;
                      main_py_loop inc exc x l' d (n + used fo)
                | None => main_py_loop inc exc x l' d (n + used fo)
                end
            | None =>
                if is_td_allow mode then
                  w <- match extras with Some s => z_py s v ni ne x | None => l_py L v ni ne x end ;;
                  d <- put k w d ;;
                  main_py_loop inc exc x l' d n
                else if is_strict (x_check x) then fail EUnexpected
                else main_py_loop inc exc x l' d n
            end
        end
  end.
(** fields.rs:148-230 [main_to_python]. *)
Definition main_to_python (l : list (pyval * option pyval)) (inc exc : incl) (x : extra) : M pydict :=
  r <- main_py_loop inc exc x l [] 0 ;;
  if check_enabled (x_check x)
     && negb (x_exclude_defaults x || x_exclude_unset x || x_exclude_none x || is_some exc)
     && Nat.ltb (snd r) required_fields
  then fail EUnexpected
  else ret (fst r).

(** fields.rs:232-281 [main_serde_serialize]. *)
Fixpoint main_to_json (l : list (pyval * option pyval)) (inc exc : incl) (x : extra) : M (list (str * json)) :=
  match l with
  | [] => ret []
  | (k, v) :: l' =>
      v <- opt v ;;
      if x_exclude_none x && is_py_none v then main_to_json l' inc exc x
      else
        ks <- key_str k ;;
        o <- res_opt (filter any_filter (key_of k) inc exc) ;;
        match o with
        | None => main_to_json l' inc exc x
        | Some (ni, ne) =>
            match assoc ks fields with
            | Some f =>
                match f_ser f with
                | Some s =>
                    if is_default v x s then main_to_json l' inc exc x
                    else
                      j <- z_js s v ni ne x ;;
                      r <- main_to_json l' inc exc x ;;
                      ret ((out_key ks f x, j) :: r)
                | None => main_to_json l' inc exc x
                end
            | None =>
                if is_td_allow mode then
                  k <- l_key L k x ;;
                  j <- l_js L v ni ne x ;;
                  r <- main_to_json l' inc exc x ;;
                  ret ((k, j) :: r)
                else main_to_json l' inc exc x
            end
        end
  end.

(** fields.rs:353-369 and 429-441: the additional items of a model. *)
Fixpoint extras_py (l : pydict) (inc exc : incl) (x : extra) (d : pydict) : M pydict :=
  match l with
  | [] => ret d
  | (k, v) :: l' =>
      if x_exclude_none x && is_py_none v then extras_py l' inc exc x d
      else
        o <- res_opt (filter any_filter (key_of k) inc exc) ;;
        match o with
        | None => extras_py l' inc exc x d
        | Some (ni, ne) =>
            w <- match extras with Some s => z_py s v ni ne x | None => l_py L v ni ne x end ;;
            d <- put k w d ;;
            extras_py l' inc exc x d
        end
  end.
Fixpoint extras_js (l : pydict) (inc exc : incl) (x : extra) : M (list (str * json)) :=
  match l with
  | [] => ret []
  | (k, v) :: l' =>
      if x_exclude_none x && is_py_none v then extras_js l' inc exc x
      else
        o <- res_opt (filter any_filter (key_of k) inc exc) ;;
        match o with
        | None => extras_js l' inc exc x
        | Some (ni, ne) =>
            k <- l_key L k x ;;
            j <- l_js L v ni ne x ;;
            r <- extras_js l' inc exc x ;;
            ret ((k, j) :: r)
        end
  end.

(** computed_fields.rs:147-175: one computed field. *)
Definition comp_key (c : computed sz) (x : extra) : str := if by_alias_or x (cf_by_alias c) then cf_alias c else cf_name c.
Fixpoint comp_py_loop (m : pyval) (l : list (computed sz)) (d : pydict) (inc exc : incl) (x : extra) : M pydict :=
  match l with
  | [] => ret d
  | c :: l' =>
      o <- res_opt (filter any_filter (KStr (cf_name c)) inc exc) ;;
      match o with
      | None => comp_py_loop m l' d inc exc x
      | Some (ni, ne) =>
          v <- opt (get_attr E m (cf_name c)) ;;
          w <- z_py (cf_ser c) v ni ne x ;;
          if x_exclude_none x && is_py_none w then comp_py_loop m l' d inc exc x
          else d <- put (PStr (comp_key c x)) w d ;; comp_py_loop m l' d inc exc x
      end
  end.
(** computed_fields.rs:42-64 and fields.rs:283-298. *)
Definition comp_to_python (m : option pyval) (d : pydict) (inc exc : incl) (x : extra) : M pydict :=
  match m with
  | Some m => if x_round_trip x then ret d else comp_py_loop m comp d inc exc (set_model (Some m) x)
  | None => ret d
  end.
(** computed_fields.rs:66-110. *)
Fixpoint comp_js_loop (m : pyval) (l : list (computed sz)) (inc exc : incl) (x : extra) : M (list (str * json)) :=
  match l with
  | [] => ret []
  | c :: l' =>
      o <- res_opt (filter any_filter (KStr (cf_name c)) inc exc) ;;
      match o with
      | None => comp_js_loop m l' inc exc x
      | Some (ni, ne) =>
          v <- opt (get_attr E m (cf_name c)) ;;
          if x_exclude_none x && is_py_none v then comp_js_loop m l' inc exc x
          else
            j <- z_js (cf_ser c) v ni ne x ;;
            r <- comp_js_loop m l' inc exc x ;;
            ret ((comp_key c x, j) :: r)
      end
  end.
(** computed_fields.rs:187-205: the serializer of a computed field reads the attribute
    again; fields.rs:300-314 passes the extra unchanged. *)
Definition comp_to_json (m : option pyval) (inc exc : incl) (x : extra) : M (list (str * json)) :=
  match m with
  | Some m => if x_round_trip x then ret [] else comp_js_loop m comp inc exc x
  | None => ret []
  end.

(** fields.rs:135-146 [extract_dicts]. *)
Definition extract_dicts (v : pyval) : option (pydict * option pydict) :=
  match mode with
  | ModelExtra =>
      match down_tuple v with
      | Some [d; e] =>
          match down_dict d with
          | Some d =>
              match e with
              | PNone => Some (d, None)
              | _ => match down_dict e with Some e => Some (d, Some e) | None => None end
              end
          | None => None
          end
      | _ => None
      end
  | _ => match down_dict v with Some d => Some (d, None) | None => None end
  end.
Definition model_or (v : pyval) (x : extra) : option pyval := match x_model x with Some m => Some m | None => Some v end.
(** fields.rs:338-349: a typed dict with no model around it. *)
Definition td_inferred (x : extra) : bool := is_none (x_model x) && is_inferred (next_mode (x_duck x)).

(** fields.rs:320-455. *)
Definition fields_ser : sz :=
  {| z_py := fun v inc exc x =>
       if td_inferred x then l_py L v inc exc (set_duck (next_mode (x_duck x)) (set_model (model_or v x) x))
       else
         match extract_dicts v with
         | None => fall_py L v inc exc x
         | Some (main, ext) =>
             d <- main_to_python (items main) inc exc (set_model (model_or v x) x) ;;
             d <- match ext with Some e => extras_py e inc exc x d | None => ret d end ;;
             d <- comp_to_python (model_or v x) d inc exc x ;;
             ret (PDict d)
         end;
     z_js := fun v inc exc x =>
       match extract_dicts v with
       | None => fall_js L v inc exc x
       | Some (main, ext) =>
           if td_inferred x then l_js L v inc exc (set_duck (next_mode (x_duck x)) (set_model (model_or v x) x))
           else
             a <- main_to_json (items main) inc exc (set_model (model_or v x) x) ;;
             b <- match ext with Some e => extras_js e inc exc x | None => ret [] end ;;
             c <- comp_to_json (model_or v x) inc exc x ;;
             ret (JObj (a ++ b ++ c))
       end;
     z_key := invalid_key L; z_retry := false; z_default := None;
     z_main := Some {| m_py := main_to_python; m_js := main_to_json; m_comp_py := comp_to_python; m_comp_js := comp_to_json |} |}.
End Fields.

(** model.rs:127-134 [allow_value] and dataclass.rs:110-117, which differ in the attribute
    tested without a check. *)
Definition class_allows (cls : N) (attr : pyval -> bool) (v : pyval) (x : extra) : bool :=
  match x_check x with
  | CStrict => exact_instance v cls
  | CLax => is_instance (e_sub E) v cls
  | CNone => attr v
  end.
Definition has_dict (v : pyval) : bool := is_some (dict_attr v).
Definition has_dataclass_fields (v : pyval) : bool :=
  match class_of v with Some c => is_some (ci_dataclass (e_class E c)) | None => false end.

(** model.rs:136-160 [get_inner_value]. *)
Definition inner_value (has_extra : bool) (v : pyval) (x : extra) : M pyval :=
  d <- opt (dict_attr v) ;;
  attrs <- opt (down_dict d) ;;
  attrs <- (if x_exclude_unset x then
              fs <- opt (get_attr E v dunder_fields_set) ;;
              set <- opt (down_set fs) ;;
              ret (List.filter (fun kv => existsb (fun y => py_eq y (fst kv)) set) attrs)
            else ret attrs) ;;
  if has_extra then e <- opt (get_attr E v dunder_extra) ;; ret (PTuple [PDict attrs; e]) else ret (PDict attrs).

(** model.rs:166-255. *)
Definition model_ser (L : level) (cls : N) (s : sz) (has_extra root : bool) : sz :=
  let mx v x := set_duck (next_mode (x_duck x)) (set_model (Some v) x) in
  simple (fun v inc exc x0 =>
            let x := mx v x0 in
            if is_inferred (x_duck x) then l_py L v inc exc x
            else if root then
              match get_attr E v Assign.root_name with
              | None => fail (if check_enabled (x_check x) then EUnexpected else EOther)
              | Some r => z_py s r inc exc x
              end
            else if class_allows cls has_dict v x then i <- inner_value has_extra v x ;; z_py s i inc exc x
            else fall_py L v inc exc x)
         (fun v inc exc x0 =>
            let x := mx v x0 in
            if is_inferred (x_duck x) then l_js L v inc exc x
            else if root then r <- opt (get_attr E v Assign.root_name) ;; z_js s r inc exc x
            else if class_allows cls has_dict v x then i <- inner_value has_extra v x ;; z_js s i inc exc x
            else fall_js L v inc exc x)
         (fun v x => if class_allows cls has_dict v x then hashed_key v else fall_key L v x) true.

(** dataclass.rs:246-258 [known_dataclass_iter] and 119-128 [get_inner_value]. *)
Definition known_items (names : list str) (v : pyval) : list (pyval * option pyval) :=
  map (fun n => (PStr n, get_attr E v n)) names.
Definition dataclass_inner (names : list str) (v : pyval) : M pyval :=
  d <- pairs_py any_filter None None (fun k => ret k) (fun e _ _ => ret e) (known_items names v) [] ;; ret (PDict d).
(** dataclass.rs:133-228. *)
Definition dataclass_ser (L : level) (cls : N) (s : sz) (names : list str) : sz :=
  let dx v x := set_duck (next_mode (x_duck x)) (set_model (Some v) x) in
  simple (fun v inc exc x0 =>
            let x := dx v x0 in
            if is_inferred (x_duck x) then l_py L v inc exc x
            else if class_allows cls has_dataclass_fields v x then
              match z_main s with
              | Some f =>
                  d <- m_py f (known_items names v) inc exc x ;;
                  d <- m_comp_py f (Some v) d inc exc x0 ;;
                  ret (PDict d)
              | None => i <- dataclass_inner names v ;; z_py s i inc exc x
              end
            else fall_py L v inc exc x)
         (fun v inc exc x0 =>
            let x := dx v x0 in
            if is_inferred (x_duck x) then l_js L v inc exc x
            else if class_allows cls has_dataclass_fields v x then
              match z_main s with
              | Some f =>
                  a <- m_js f (known_items names v) inc exc x ;;
                  b <- m_comp_js f (Some v) inc exc x0 ;;
                  ret (JObj (a ++ b))
              | None => i <- dataclass_inner names v ;; z_js s i inc exc x
              end
            else fall_js L v inc exc x)
         (fun v x => if class_allows cls has_dataclass_fields v x then hashed_key v else fall_key L v x) true.

(** A call whose failure is an answer: its warnings stay. *)
Definition attempt {A} (m : M A) : M (option A) :=
  (fst m, Good match snd m with Good a => Some a | Bad _ => None end).
(** union.rs:84-104: the first choice that succeeds. *)
Fixpoint first_ok {A B} (sel : A -> M B) (l : list A) : M (option B) :=
  match l with
  | [] => ret None
  | s :: l' => r <- attempt (sel s) ;; match r with Some b => ret (Some b) | None => first_ok sel l' end
  end.
Fixpoint register_all {A} (l : list A) (x : extra) : M unit :=
  match l with [] => ret tt | _ :: l' => _ <- register WUnion x ;; register_all l' x end.
(** union.rs:73-128 [union_serialize]. *)
Definition union_serialize {A B} (sel : A -> extra -> M B) (x : extra) (choices : list A) (retry : bool) : M (option B) :=
  r <- first_ok (fun s => sel s (set_check CStrict x)) choices ;;
  match r with
  | Some b => ret (Some b)
  | None =>
      r <- (if negb (is_strict (x_check x)) && retry then first_ok (fun s => sel s (set_check CLax x)) choices else ret None) ;;
      match r with
      | Some b => ret (Some b)
      | None =>
          if check_enabled (x_check x) then match choices with [] => ret None | _ => fail EUnexpected end
          else _ <- register_all choices x ;; ret None
      end
  end.
Definition or_infer {A} (m : M (option A)) (inferred : M A) : M A :=
  r <- m ;; match r with Some a => ret a | None => inferred end.
(** union.rs:130-187; the JSON form of the result of the chosen serializer is inferred. *)
Definition union_ser (L : level) (choices : list sz) : sz :=
  let retry := existsb z_retry choices in
  let py v inc exc x := union_serialize (fun s x' => z_py s v inc exc x') x choices retry in
  simple (fun v inc exc x => or_infer (py v inc exc x) (l_py L v inc exc x))
         (fun v inc exc x => r <- py v inc exc x ;; match r with Some w => l_js L w None None x | None => l_js L v inc exc x end)
         (fun v x => or_infer (union_serialize (fun s x' => z_key s v x') x choices retry) (l_key L v x)) retry.

(** union.rs:295-313 [get_discriminator_value].  Simplification: an attribute that raises
    another exception than AttributeError counts as absent. *)
Definition getattr_res (v : pyval) (n : str) : attr_res := match get_attr E v n with Some w => AVal w | None => AMissing end.
Definition tag_of (d : disc) (v : pyval) : option pyval :=
  match d with
  | DKey k =>
      match down_dict v with
      | Some l => match py_get_dict_item k l with Some (_, t) => Some t | None => None end
      | None => match simple_py_get_attr getattr_res k v with inl (Some (_, t)) => Some t | _ => None end
      end
  | DFun f => f v
  end.
(** union.rs:308-357 [tagged_union_serialize]. *)
Definition tagged_serialize {B} (d : disc) (tags : list (str * nat)) (choices : list sz) (retry : bool)
  (sel : sz -> extra -> M B) (v : pyval) (x : extra) : M (option B) :=
  let rest := union_serialize sel x choices retry in
  match tag_of d v with
  | Some t =>
      match match py_str E t with Some s => assoc s tags | None => None end with
      | Some i =>
          match nth_error choices i with
          | Some s =>
              r <- attempt (sel s (set_check CStrict x)) ;;
              match r with
              | Some b => ret (Some b)
              | None =>
                  if retry then
                    r <- attempt (sel s (set_check CLax x)) ;;
                    match r with Some b => ret (Some b) | None => rest end
                  else rest
              end
          | None => fail ECrash
          end
      | None => rest
      end
  | None => if check_enabled (x_check x) then rest else _ <- register (WNoTag v) x ;; rest
  end.
Definition tagged_ser (L : level) (d : disc) (tags : list (str * nat)) (choices : list sz) : sz :=
  let retry := existsb z_retry choices in
  let py v inc exc x := tagged_serialize d tags choices retry (fun s x' => z_py s v inc exc x') v x in
  simple (fun v inc exc x => or_infer (py v inc exc x) (l_py L v inc exc x))
         (fun v inc exc x => r <- py v inc exc x ;; match r with Some w => l_js L w None None x | None => l_js L v inc exc x end)
         (fun v x => or_infer (tagged_serialize d tags choices retry (fun s x' => z_key s v x') v x) (l_key L v x)) retry.

(** literal.rs:32-107: the expected ints (not bools) and strs, the other values; the
    answer of [check]. *)
Definition i64 (z : Z) : bool := ((- 9223372036854775808 <=? z) && (z <=? 9223372036854775807))%Z.
Definition lit_int (v : pyval) : option Z :=
  match base v with PInt z => if i64 z then Some z else None | _ => None end.
Definition lit_ints (l : list pyval) : list Z := flat_map (fun v => match lit_int v with Some z => [z] | None => [] end) l.
Definition lit_strs (l : list pyval) : list str :=
  flat_map (fun v => match lit_int v with Some _ => [] | None => match down_str v with Some s => [s] | None => [] end end) l.
Definition lit_others (l : list pyval) : list pyval :=
  List.filter (fun v => is_none (lit_int v) && is_none (down_str v)) l.
Inductive lit_answer := LInt (z : Z) | LStr (s : str) | LOk | LFallback.
Definition lit_check (expected : list pyval) (v : pyval) (x : extra) : M lit_answer :=
  if check_enabled (x_check x) then
    match lit_int v with
    | Some z => if existsb (Z.eqb z) (lit_ints expected) then ret (LInt z)
                else ret (if existsb (fun e => py_eq e v) (lit_others expected) then LOk else LFallback)
    | None =>
        match down_str v with
        | Some s =>
            if is_nil (lit_strs expected) then ret (if existsb (fun e => py_eq e v) (lit_others expected) then LOk else LFallback)
            else
              s <- to_str s ;;
              ret (if mem_str s (lit_strs expected) then LStr s
                   else if existsb (fun e => py_eq e v) (lit_others expected) then LOk else LFallback)
        | None => ret (if existsb (fun e => py_eq e v) (lit_others expected) then LOk else LFallback)
        end
    end
  else ret LOk.
(** literal.rs:111-164. *)
Definition literal_ser (L : level) (expected : list pyval) : sz :=
  simple (fun v inc exc x =>
            a <- lit_check expected v x ;;
            match a with
            | LInt z => ret (if x_json x then PInt z else v)
            | LStr s => ret (if x_json x then PStr s else v)
            | LOk => l_py L v inc exc x
            | LFallback => fall_py L v inc exc x
            end)
         (fun v inc exc x =>
            a <- lit_check expected v x ;;
            match a with
            | LInt z => ret (JInt z)
            | LStr s => ret (JStr s)
            | LOk => l_js L v inc exc x
            | LFallback => fall_js L v inc exc x
            end)
         (fun v x =>
            a <- lit_check expected v x ;;
            match a with
            | LInt z => ret (dec_Z z)
            | LStr s => ret s
            | LOk => l_key L v x
            | LFallback => fall_key L v x
            end) false.

(** enum_.rs:48-125. *)
Definition enum_ser (L : level) (cls : N) (sub : option sz) : sz :=
  simple (fun v inc exc x =>
            if exact_instance v cls then
              if x_json x then
                w <- opt (enum_value E v) ;;
                match sub with Some s => z_py s w inc exc x | None => l_py L w inc exc x end
              else ret v
            else fall_py L v inc exc x)
         (fun v inc exc x =>
            if exact_instance v cls then
              w <- opt (enum_value E v) ;;
              match sub with Some s => z_js s w inc exc x | None => l_js L w inc exc x end
            else fall_js L v inc exc x)
         (fun v x =>
            if exact_instance v cls then
              w <- opt (enum_value E v) ;;
              match sub with Some s => z_key s w x | None => l_key L w x end
            else fall_key L v x)
         (match sub with Some s => z_retry s | None => false end).

(** format.rs:186-225 [ToStringSerializer]. *)
Definition to_string_ser (w : when_used) : sz :=
  simple (fun v _ _ x => if should_use w v x then s <- opt (py_str E v) ;; ret (PStr s) else ret v)
         (fun v _ _ _ => if should_use_json w v then s <- opt (py_str E v) ;; s <- to_str s ;; ret (JStr s) else ret JNull)
         (fun v _ => if should_use_json w v then str_key v else ret none_key) false.

(** json_or_python.rs:49-78. *)
Definition json_or_python_ser (j p : sz) : sz := simple (z_py p) (z_js j) (z_key j) false.

(** json.rs:42-100; shared.rs:353-380 [to_json_bytes] without indentation. *)
Definition json_text_of (j : M json) : M str :=
  j <- j ;; match to_json_text (e_ryu E) None j with Some bs => opt (from_utf8 bs) | None => fail ECrash end.
Definition json_ser (L : level) (s : sz) : sz :=
  simple (fun v inc exc x => if x_round_trip x then t <- json_text_of (z_js s v inc exc x) ;; ret (PStr t) else z_py s v inc exc x)
         (fun v inc exc x => if x_round_trip x then t <- json_text_of (z_js s v inc exc x) ;; ret (JStr t) else z_js s v inc exc x)
         (fun v x => if x_round_trip x then json_text_of (z_js s v None None x) else l_key L v x) false.

(** function.rs:142-176 [call] and 200-225 [on_error], 227-300 the macro: the filters are
    not given to the serializer of the result, nor to the one used instead. *)
Definition function_ser (L : level) (w : when_used) (is_field : bool) (f : option pyval -> pyval -> pyval + ferr)
  (r : sz) (fb : option sz) : sz :=
  let call v x := if is_field then match x_model x with Some m => f (Some m) v | None => inr FError end else f None v in
  let on_error e x := match e with
                      | FUnexpected => if check_enabled (x_check x) then fail EUnexpected else register WFunction x
                      | FError => fail EOther
                      end in
  simple (fun v inc exc x =>
            if should_use w v x then
              match call v x with
              | inl o => z_py r o None None x
              | inr e => _ <- on_error e x ;; l_py L v inc exc x
              end
            else match fb with Some s => z_py s v None None x | None => fail ECrash end)
         (fun v inc exc x =>
            if should_use w v x then
              match call v x with
              | inl o => z_js r o None None x
              | inr e => _ <- on_error e x ;; l_js L v inc exc x
              end
            else match fb with Some s => z_js s v None None x | None => fail ECrash end)
         (fun v x =>
            if should_use w v x then
              match call v x with
              | inl o => z_key r o x
              | inr e => _ <- on_error e x ;; l_key L v x
              end
            else match fb with Some s => z_key s v x | None => fail ECrash end)
         (match fb with Some s => z_retry s | None => false end || z_retry r).

(** definitions.rs:82-135. *)
Definition def_ser (L : level) (k : nat) (retry : bool) : sz :=
  simple (l_def_py L k) (l_def_js L k) (l_def_key L k) retry.

Definition map_field {S T} (g : S -> T) (f : field S) : field T :=
  {| f_alias := f_alias f; f_ser := match f_ser f with Some s => Some (g s) | None => None end;
     f_required := f_required f; f_by_alias := f_by_alias f |}.
Definition map_computed {S T} (g : S -> T) (c : computed S) : computed T :=
  {| cf_name := cf_name c; cf_alias := cf_alias c; cf_ser := g (cf_ser c); cf_by_alias := cf_by_alias c |}.

(** shared.rs: the dispatch of [CombinedSerializer]. *)
Fixpoint build (L : level) (s : ser) : sz :=
  match s with
  | SerAny => any_ser L
  | SerNone => none_ser L
  | SerInt => int_ser L
  | SerBool => bool_ser L
  | SerFloat m => float_ser L m
  | SerStr => str_ser L
  | SerBytes m => bytes_ser L m
  | SerNullable s => nullable_ser (build L s)
  | SerDefault d s => default_ser d (build L s)
  | SerList f s => list_ser L f (build L s)
  | SerSet s => set_ser L down_set PSet (build L s)
  | SerFrozenSet s => set_ser L down_frozenset PFrozenSet (build L s)
  | SerTuple f l v => tuple_ser L f (map (build L) l) v
  | SerDict f k v => dict_ser L f (build L k) (build L v)
  | SerFields m fs ex c =>
      fields_ser L m (map (fun kf => (fst kf, map_field (build L) (snd kf))) fs)
        (match ex with Some s => Some (build L s) | None => None end) (map (map_computed (build L)) c)
  | SerModel cls s e r => model_ser L cls (build L s) e r
  | SerDataclass cls s names => dataclass_ser L cls (build L s) names
  | SerUnion l => union_ser L (map (build L) l)
  | SerTagged d tags l => tagged_ser L d tags (map (build L) l)
  | SerLiteral l => literal_ser L l
  | SerEnum cls o => enum_ser L cls (match o with Some s => Some (build L s) | None => None end)
  | SerToString w => to_string_ser w
  | SerJsonOrPython j p => json_or_python_ser (build L j) (build L p)
  | SerJson s => json_ser L (build L s)
  | SerDef k r => def_ser L k r
  | SerFunction w i f r fb => function_ser L w i f (build L r) (match fb with Some s => Some (build L s) | None => None end)
  end.

(** The levels of the recursion guard.  A level is what a serializer running with that many
    levels left can call; keys are not guarded, only bounded by the native stack. *)
Fixpoint keyed (P : level) (stack : nat) : level :=
  match stack with
  | O =>
      {| l_py := l_py P; l_js := l_js P; l_def_py := l_def_py P; l_def_js := l_def_js P;
         l_key := fun _ _ => fail ECrash; l_def_key := fun _ _ _ => fail ECrash |}
  | S m =>
      let L := keyed P m in
      {| l_py := l_py P; l_js := l_js P; l_def_py := l_def_py P; l_def_js := l_def_js P;
         l_key := fun v x => infer_key_body (l_key L) v x;
         l_def_key := fun k v x => match e_def E k with Some s => z_key (build L s) v x | None => fail ECrash end |}
  end.
Definition no_level : level :=
  keyed {| l_py := fun v _ _ x => guard_failed_py v x; l_js := fun _ _ _ x => guard_failed_js x; l_key := fun _ _ => fail ECrash;
           l_def_py := fun _ _ _ _ _ => fail EOther; l_def_js := fun _ _ _ _ _ => fail EOther; l_def_key := fun _ _ _ => fail ECrash |}
        (e_stack E).
(** recursion_guard.rs:69-86: [enter] and one level less. *)
Definition next_level (L : level) : level :=
  keyed
    {| l_py := fun v inc exc x =>
         match enter v None x with
         | Some x' => infer_py_body L (fun s => z_py (build L s)) v inc exc x'
         | None => guard_failed_py v x
         end;
       l_js := fun v inc exc x =>
         match enter v None x with
         | Some x' => infer_js_body L (fun s => z_js (build L s)) v inc exc x'
         | None => guard_failed_js x
         end;
       l_key := fun _ _ => fail ECrash;
       l_def_py := fun k v inc exc x =>
         match e_def E k with
         | None => fail ECrash
         | Some s => match enter v (Some k) x with Some x' => z_py (build L s) v inc exc x' | None => fail EOther end
         end;
       l_def_js := fun k v inc exc x =>
         match e_def E k with
         | None => fail ECrash
         | Some s => match enter v (Some k) x with Some x' => z_js (build L s) v inc exc x' | None => fail EOther end
         end;
       l_def_key := fun _ _ _ => fail ECrash |}
    (e_stack E).
Fixpoint levels (n : nat) : level := match n with O => no_level | S m => next_level (levels m) end.
(** recursion_guard.rs:57-63. *)
Definition ser_limit : nat := 255.

(** mod.rs:110-235 [SchemaSerializer.to_python] and [to_json].  The options of a call and
    the warnings mode (extra.rs:344-380). *)
Inductive warnings_mode := WNone | WWarn | WError.
Record options := {
  o_by_alias : option bool; o_exclude_unset : bool; o_exclude_defaults : bool; o_exclude_none : bool; o_round_trip : bool;
  o_warnings : warnings_mode; o_fallback : option (pyval -> option pyval); o_as_any : bool;
  o_include : incl; o_exclude : incl }.
Definition start (c : config) (json : bool) (o : options) : extra :=
  {| x_json := json; x_by_alias := o_by_alias o; x_exclude_unset := o_exclude_unset o;
     x_exclude_defaults := o_exclude_defaults o; x_exclude_none := o_exclude_none o; x_round_trip := o_round_trip o;
     x_config := c; x_check := CNone; x_model := None; x_serialize_unknown := false; x_fallback := o_fallback o;
     x_duck := if o_as_any o then NeedsInference else SchemaBased;
     x_collect := match o_warnings o with WNone => false | _ => true end; x_guard := [] |}.
(** The end of a call: a result with the warnings shown to the user, or an exception.
    extra.rs:466-477 [final_check]; the user's warning filters do not turn warnings into
    exceptions. *)
Inductive result (A : Type) := Returned (a : A) (shown : list warning) | Raised.
Arguments Returned {A}. Arguments Raised {A}.
Definition final_check {A} (w : warnings_mode) (m : M A) : result A :=
  match snd m with
  | Bad _ => Raised
  | Good a =>
      match w with
      | WNone => Returned a []
      | WWarn => Returned a (fst m)
      | WError => if is_nil (fst m) then Returned a [] else Raised
      end
  end.
Definition to_python (s : ser) (c : config) (json : bool) (o : options) (v : pyval) : result pyval :=
  final_check (o_warnings o) (z_py (build (levels ser_limit) s) v (o_include o) (o_exclude o) (start c json o)).
Definition to_json (s : ser) (c : config) (o : options) (v : pyval) : result json :=
  final_check (o_warnings o) (z_js (build (levels ser_limit) s) v (o_include o) (o_exclude o) (start c true o)).
(** [to_json] as the bytes returned to the user. *)
Definition to_json_bytes (s : ser) (c : config) (o : options) (indent : option nat) (v : pyval) : option bytes :=
  match to_json s c o v with Returned j _ => to_json_text (e_ryu E) indent j | Raised => None end.
End Ser.
Arguments Returned {A}. Arguments Raised {A}.
