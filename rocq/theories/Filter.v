(** Model of src/serializers/filter.rs: include / exclude filters. *)
From Coq Require Import List NArith ZArith Bool.
From Verif Require Import Base.
Import ListNotations.

(** A dict key / list index as it appears in a filter or in the data.
    Simplification: only int and str keys (the documented filter type). *)
Inductive key := KInt (z : Z) | KStr (s : str).
Definition key_eqb (a b : key) : bool :=
  match a, b with
  | KInt x, KInt y => Z.eqb x y
  | KStr x, KStr y => str_eqb x y
  | _, _ => false
  end.

(** The string ["__all__"]. *)
Definition ALL : key := KStr (lit "__all__").

(** A value given as [include] / [exclude] or nested in one: [...]/[True]
    (filter.rs:321-328 [is_ellipsis_like]), [None], a dict, a set, another object
    with a usable [__contains__] (a list, tuple or frozenset of keys), anything
    else.  A dict or set is a duplicate free list. *)
Inductive fval :=
| FEll
| FNone
| FDict (d : list (key * fval))
| FSet (l : list key)
| FContains (l : list key)
| FOther.

(** [TypeError] / [ValueError] raised by the filter code. *)
Inductive res (A : Type) := Ok (a : A) | TypeErr | ValueErr.
Arguments Ok {A}. Arguments TypeErr {A}. Arguments ValueErr {A}.

(** [dict.get_item], [dict.set_item] (keeps the position of an existing key),
    [set.contains]. *)
Fixpoint lookup (k : key) (d : list (key * fval)) : option fval :=
  match d with
  | [] => None
  | (k', v) :: d' => if key_eqb k k' then Some v else lookup k d'
  end.
Fixpoint set_item (k : key) (v : fval) (d : list (key * fval)) : list (key * fval) :=
  match d with
  | [] => [(k, v)]
  | (k', v') :: d' => if key_eqb k k' then (k', v) :: d' else (k', v') :: set_item k v d'
  end.
Definition mem (k : key) (l : list key) : bool := existsb (key_eqb k) l.

(** filter.rs:18-35 [map_negative_index].  [k % len] on a str raises (the object
    is then used unchanged) unless it is a format string; simplification: str keys
    containing a percent sign are not represented.  [k % 0] raises too. *)
Definition map_negative_index (k : key) (len : option Z) : res key :=
  match len with
  | Some n =>
      match k with
      | KInt z => Ok (if Z.eqb n 0 then k else KInt (Z.modulo z n))
      | KStr _ => Ok k
      end
  | None =>
      match k with
      | KInt z => if Z.ltb z 0 then ValueErr else Ok k
      | KStr _ => Ok k
      end
  end.

(** filter.rs:37-58 [map_negative_indices]. *)
Fixpoint map_keys (len : option Z) (d acc : list (key * fval)) : res (list (key * fval)) :=
  match d with
  | [] => Ok acc
  | (k, v) :: d' =>
      match map_negative_index k len with
      | Ok k' => map_keys len d' (set_item k' v acc)
      | TypeErr => TypeErr
      | ValueErr => ValueErr
      end
  end.
Fixpoint map_elems (len : option Z) (l : list key) : res (list key) :=
  match l with
  | [] => Ok []
  | k :: l' =>
      match map_negative_index k len, map_elems len l' with
      | Ok k', Ok r => Ok (if mem k' r then r else k' :: r)
      | ValueErr, _ | _, ValueErr => ValueErr
      | _, _ => TypeErr
      end
  end.
Definition map_negative_indices (f : fval) (len : option Z) : res fval :=
  match f with
  | FDict d => match map_keys len d [] with Ok d' => Ok (FDict d') | TypeErr => TypeErr | ValueErr => ValueErr end
  | FSet l => match map_elems len l with Ok l' => Ok (FSet l') | TypeErr => TypeErr | ValueErr => ValueErr end
  | _ => Ok f
  end.

Definition is_ell (f : fval) : bool := match f with FEll => true | _ => false end.

(** filter.rs:354-369 [as_dict]. *)
Definition as_dict (f : fval) : res (list (key * fval)) :=
  match f with
  | FDict d => Ok d
  | FSet l => Ok (map (fun k => (k, FEll)) l)
  | _ => TypeErr
  end.

(** filter.rs:371-400 [merge_dicts]. *)
Fixpoint merge_dicts (item : list (key * fval)) (all : fval) {struct all} : res (list (key * fval)) :=
  match all with
  | FDict ad =>
      (fix go (ad : list (key * fval)) (item : list (key * fval)) : res (list (key * fval)) :=
         match ad with
         | [] => Ok item
         | (k, av) :: ad' =>
             match lookup k item with
             | Some iv =>
                 if is_ell iv then go ad' item
                 else
                   match as_dict iv with
                   | Ok ivd =>
                       if is_ell av then go ad' item
                       else
                         match merge_dicts ivd av with
                         | Ok m => go ad' (set_item k (FDict m) item)
                         | TypeErr => TypeErr
                         | ValueErr => ValueErr
                         end
                   | TypeErr => TypeErr
                   | ValueErr => ValueErr
                   end
             | None => go ad' (set_item k av item)
             end
         end) ad item
  | FSet l => Ok (fold_left (fun d k => match lookup k d with Some _ => d | None => set_item k FEll d end) l item)
  | _ => TypeErr
  end.

(** filter.rs:331-352 [merge_all_value]. *)
Definition merge_all_value (d : list (key * fval)) (k : key) : res (option fval) :=
  match lookup k d, lookup ALL d with
  | Some iv, Some av =>
      if is_ell iv || is_ell av then Ok (Some iv)
      else
        match as_dict iv with
        | Ok id => match merge_dicts id av with Ok m => Ok (Some (FDict m)) | TypeErr => TypeErr | ValueErr => ValueErr end
        | TypeErr => TypeErr
        | ValueErr => ValueErr
        end
  | Some iv, None => Ok (Some iv)
  | None, o => Ok o
  end.

(** filter.rs:9-13 [SchemaFilter] (and [AnyFilter], 245-252 and 309-319, which is
    the filter with neither set). *)
Record schema_filter := { sf_include : option (list key); sf_exclude : option (list key) }.
Definition any_filter : schema_filter := {| sf_include := None; sf_exclude := None |}.

(** filter.rs:226-243 [explicit_include], [default_filter]. *)
Definition explicit_include (sf : schema_filter) (k : key) : bool :=
  match sf_include sf with Some l => mem k l | None => false end.
Definition default_filter (sf : schema_filter) (k : key) : bool :=
  match sf_include sf, sf_exclude sf with
  | Some i, Some e => mem k i && negb (mem k e)
  | Some i, None => mem k i
  | None, Some e => negb (mem k e)
  | None, None => true
  end.

(** What happens to one item: omitted ([None]), or serialized with these nested
    filters. *)
Definition next_filters := option (option fval * option fval).

(** filter.rs:153-223 [FilterLogic::filter].  The exclude phase either omits the
    item or leaves a nested exclude. *)
Definition exclude_phase (k : key) (exclude : option fval) : res (option (option fval)) :=
  match exclude with
  | None | Some FNone => Ok (Some None)
  | Some (FDict d) =>
      match merge_all_value d k with
      | Ok (Some v) => if is_ell v then Ok None else Ok (Some (Some v))
      | Ok None => Ok (Some None)
      | TypeErr => TypeErr
      | ValueErr => ValueErr
      end
  | Some (FSet l) | Some (FContains l) => Ok (if mem k l || mem ALL l then None else Some None)
  | Some FEll | Some FOther => TypeErr
  end.
(** filter.rs:215-222, the last lines of [filter]. *)
Definition filter_tail (sf : schema_filter) (k : key) (next_exclude : option fval) : next_filters :=
  match next_exclude with
  | Some e => Some (None, Some e)
  | None => if default_filter sf k then Some (None, None) else None
  end.
Definition filter (sf : schema_filter) (k : key) (include exclude : option fval) : res next_filters :=
  match exclude_phase k exclude with
  | TypeErr => TypeErr
  | ValueErr => ValueErr
  | Ok None => Ok None
  | Ok (Some next_exclude) =>
      let tail := Ok (filter_tail sf k next_exclude) in
      match include with
      | None | Some FNone => tail
      | Some (FDict d) =>
          match merge_all_value d k with
          | Ok (Some v) => Ok (Some ((if is_ell v then None else Some v), next_exclude))
          | Ok None => if explicit_include sf k then tail else Ok None
          | TypeErr => TypeErr
          | ValueErr => ValueErr
          end
      | Some (FSet l) | Some (FContains l) =>
          if mem k l || mem ALL l then Ok (Some (None, next_exclude))
          else if explicit_include sf k then tail else Ok None
      | Some FEll | Some FOther => TypeErr
      end
  end.

(** filter.rs:96-107 and 268-278 [index_filter]; filter.rs:139-149 and 257-266
    [key_filter] is [filter] itself. *)
Definition map_opt (f : option fval) (len : option Z) : res (option fval) :=
  match f with
  | None => Ok None
  | Some f => match map_negative_indices f len with Ok f' => Ok (Some f') | TypeErr => TypeErr | ValueErr => ValueErr end
  end.
Definition index_filter (sf : schema_filter) (index : Z) (include exclude : option fval) (len : option Z) : res next_filters :=
  match map_opt include len with
  | TypeErr => TypeErr
  | ValueErr => ValueErr
  | Ok i =>
      match map_opt exclude len with
      | TypeErr => TypeErr
      | ValueErr => ValueErr
      | Ok e => filter sf (KInt index) i e
      end
  end.
