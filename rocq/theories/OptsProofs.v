(** Two runs side by side: with options, and without on the schema that says them. *)
From Coq Require Import List NArith ZArith Bool Lia.
From Verif Require Import InterpSpec InterpProofs Base Float64 IntParse Numbers BytesCodec Values VState LookupKey Collections Child Inputs Scalars Literal Wrappers Union TaggedUnion Tuple ModelFields TypedDict Assign Arguments Classes Interp OptsSpec.
Import ListNotations.
Open Scope nat_scope.

Section Opts.
Variable o : call_opts.
Definition hush_x (x : extra) : extra :=
  {| x_input_type := x_input_type x; x_strict := None; x_from_attributes := None; x_by_alias := None; x_by_name := None; x_data := x_data x; x_field_name := x_field_name x |}.
Definition hush (s : state) : state := set_extra (hush_x (st_extra s)) s.
Definition opts (s : state) := (x_strict (st_extra s), x_from_attributes (st_extra s), x_by_alias (st_extra s), x_by_name (st_extra s)).
Definition has (s : state) : Prop := opts s = (op_strict o, op_from_attributes o, op_by_alias o, op_by_name o).
Definition P {A} (p p' : A * state) : Prop := p' = (fst p, hush (snd p)) /\ has (snd p).
Definition comm {A X} (v v' : X -> state -> A * state) : Prop := forall i s, has s -> P (v i s) (v' i (hush s)).
Record comm_cv (v v' : cv) : Prop := { cc_v : comm (cv_validate v) (cv_validate v'); cc_d : comm (cv_default v) (cv_default v') }.

(** ** What [hush] commutes with *)
Lemma h_partial m s : set_partial m (hush s) = hush (set_partial m s). Proof. reflexivity. Qed.
Lemma h_exact m s : set_exactness m (hush s) = hush (set_exactness m s). Proof. reflexivity. Qed.
Lemma h_fields m s : set_fields_set m (hush s) = hush (set_fields_set m s). Proof. reflexivity. Qed.
Lemma h_floor m s : floor_exactness m (hush s) = hush (floor_exactness m s).
Proof. unfold floor_exactness. change (st_exactness (hush s)) with (st_exactness s). destruct (st_exactness s) as [[]|]; [reflexivity|destruct m; reflexivity|reflexivity|reflexivity]. Qed.
Lemma h_add n s : add_fields_set n (hush s) = hush (add_fields_set n s). Proof. reflexivity. Qed.
Lemma h_data d s : set_extra (set_data d (st_extra (hush s))) (hush s) = hush (set_extra (set_data d (st_extra s)) s). Proof. reflexivity. Qed.
Lemma h_name d s : set_extra (set_field_name d (st_extra (hush s))) (hush s) = hush (set_extra (set_field_name d (st_extra s)) s). Proof. reflexivity. Qed.
Lemma h_back s t : set_extra (st_extra (hush s)) (hush t) = hush (set_extra (st_extra s) t). Proof. reflexivity. Qed.
Lemma h_get_exact s : st_exactness (hush s) = st_exactness s. Proof. reflexivity. Qed.
Lemma h_get_partial s : st_partial (hush s) = st_partial s. Proof. reflexivity. Qed.
Lemma h_get_fields s : st_fields_set (hush s) = st_fields_set s. Proof. reflexivity. Qed.
Lemma h_get_data s : x_data (st_extra (hush s)) = x_data (st_extra s). Proof. reflexivity. Qed.
Lemma h_get_type s : x_input_type (st_extra (hush s)) = x_input_type (st_extra s). Proof. reflexivity. Qed.
Lemma h_info own s : info_of own (hush s) = info_of own s. Proof. reflexivity. Qed.
Lemma h_handler s e : handler_state (hush s) e = hush (handler_state s e). Proof. reflexivity. Qed.
Lemma h_enum A (l : list A) s : enumerate_last_partial (hush s) l = enumerate_last_partial s l. Proof. reflexivity. Qed.
Lemma h_call f own v i s : call_fun f own v i (hush s) = call_fun f own v i s. Proof. reflexivity. Qed.

Lemma has_floor m s : has s -> has (floor_exactness m s).
Proof. unfold floor_exactness. destruct (st_exactness s) as [[]|]; [auto|destruct m; auto|auto|auto]. Qed.
Lemma h_strict b s : has s -> strict_or (hush s) (ruled (op_strict o) b) = strict_or s b.
Proof. unfold strict_or, has, opts. intros [= -> _ _ _]. reflexivity. Qed.
Lemma h_from b s : has s -> unwrap_or (x_from_attributes (st_extra (hush s))) (ruled (op_from_attributes o) b) = unwrap_or (x_from_attributes (st_extra s)) b.
Proof. unfold has, opts. intros [= _ -> _ _]. destruct (op_from_attributes o); reflexivity. Qed.
Lemma h_alias b s : has s -> validate_by_alias_or (hush s) (ruled_opt (op_by_alias o) b) = validate_by_alias_or s b.
Proof. unfold has, opts, validate_by_alias_or. intros [= _ _ -> _]. destruct (op_by_alias o); reflexivity. Qed.
Lemma h_by_name b s : has s -> validate_by_name_or (hush s) (ruled_opt (op_by_name o) b) = validate_by_name_or s b.
Proof. unfold has, opts, validate_by_name_or. intros [= _ _ _ ->]. destruct (op_by_name o); reflexivity. Qed.

Ltac hs := solve [assumption | apply has_floor; hs | match goal with H : has _ |- _ => exact H end | match goal with H : has _ |- _ => exact (has_floor _ _ H) end].
Ltac push := repeat first [rewrite h_partial | rewrite h_exact | rewrite h_fields | rewrite h_floor | rewrite h_add | rewrite h_data | rewrite h_name | rewrite h_back | rewrite h_get_exact | rewrite h_get_partial
  | rewrite h_get_fields | rewrite h_get_data | rewrite h_get_type | rewrite h_info | rewrite h_handler | rewrite h_enum | rewrite h_call | rewrite h_strict by hs | rewrite h_from by hs | rewrite h_alias by hs | rewrite h_by_name by hs].
Lemma P_same A (a : A) s : has s -> P (a, s) (a, hush s). Proof. intros H. split; [reflexivity|exact H]. Qed.
Lemma rebind_P A f (k k' : state -> A * state) s : (forall t, set_extra (f (st_extra (hush t))) (hush t) = hush (set_extra (f (st_extra t)) t)) -> (forall t, has t -> has (set_extra (f (st_extra t)) t)) ->
  (forall t, has t -> P (k t) (k' (hush t))) -> has s -> P (rebind f s k) (rebind f (hush s) k').
Proof.
  intros F G K H. unfold rebind. rewrite F. destruct (K _ (G _ H)) as [-> N]. destruct (k _) as [a t]. cbn [fst snd] in *. rewrite h_back. apply P_same. exact H.
Qed.

(** One step of both runs. *)
Ltac both X := let E := fresh "E" in let N := fresh "N" in destruct X as [E N]; rewrite E; clear E;
  match type of N with has (snd ?p) => let r := fresh "r" in let t := fresh "t" in destruct p as [r t]; cbn [fst snd] in N |- * end.
Ltac fin := match goal with |- P (_, ?s) (_, hush ?s) => apply P_same; hs end.
Ltac child := match goal with
  | V : comm ?v _ |- P (match ?v ?i ?s with _ => _ end) _ => let H := fresh in assert (H : has s) by hs; both (V i s H); clear H
  | V : comm ?v ?v' |- P (?v ?i ?s) (?v' ?i (hush ?s)) => apply V; hs
  | V : comm ?v _ |- P (match rebind ?f ?s (?v ?i) with _ => _ end) (match rebind ?f (hush ?s) (?v' ?i) with _ => _ end) =>
      let H := fresh in assert (H : P (rebind f s (v i)) (rebind f (hush s) (v' i))) by (apply rebind_P; [reflexivity|intros ? ?; hs|intros ? ?; now apply V|hs]); both H
  | IH : _ |- P (?f _) (?f _) => apply IH; hs
  | IH : _ |- P _ _ => solve [apply IH; hs]
  | IH : _ |- P (match ?x with _ => _ end) (match ?y with _ => _ end) => let H := fresh in assert (H : P x y) by (solve [apply IH; hs]); both H
  end.
Ltac on := match goal with |- P (match ?x with _ => _ end) _ => destruct x end.
Ltac go := repeat (cbv beta iota zeta; push; first [fin | child | on]).

(** ** Collections *)
Lemma vec_comm v v' ff ap : comm v v' -> forall l mc out es s, has s -> P (vec_loop v ff ap mc out es l s) (vec_loop v' ff ap mc out es l (hush s)).
Proof. intros V l. induction l as [|[[ix b] [i|e]] l IH]; intros mc out es s H; cbn [vec_loop]; go. Qed.
Definition comm_opt (v v' : option validator) : Prop := match v, v' with Some w, Some w' => comm w w' | None, None => True | _, _ => False end.
Lemma list_comm c v v' f : comm_opt v v' -> comm (list_validate c v f) (list_validate (over_coll o c) v' f).
Proof.
  intros V i s H. unfold list_validate, over_coll, validate_iter_to_vec. cbn [co_strict co_min co_max co_fail_fast]. push. on; [|fin].
  destruct v as [w|], v' as [w'|]; try contradiction; [|go]. cbn in V. pose proof (vec_comm w w') as X. go.
Qed.
Lemma add_comm v v' set i s : comm v v' -> has s -> P (validate_add v set i s) (validate_add v' set i (hush s)).
Proof. intros V H. unfold validate_add. go. Qed.
Lemma set_comm v v' ff c i0 mx ap : comm v v' -> forall l set es s, has s -> P (set_loop v ff c i0 mx ap set es l s) (set_loop v' ff c i0 mx ap set es l (hush s)).
Proof.
  intros V l. induction l as [|[[ix b] [i|e]] l IH]; intros set es s H; cbn [set_loop]; pose proof (add_comm v v'); go.
Qed.
Lemma set_validate_comm fr c v v' f : comm v v' -> comm (set_validate fr c v f) (set_validate fr (over_coll o c) v' f).
Proof.
  intros V i s H. unfold set_validate, over_coll, validate_iter_to_set. cbn [co_strict co_min co_max co_fail_fast]. pose proof (set_comm v v') as X. go.
Qed.
Lemma dict_loop_comm k k' v v' ap : comm k k' -> comm v v' -> forall l out es s, has s -> P (dict_loop k v ap out es l s) (dict_loop k' v' ap out es l (hush s)).
Proof. intros K V l. induction l as [|[[ix b] [key kl value|e]] l IH]; intros out es s H; cbn [dict_loop]; go. Qed.
Lemma dict_comm c k k' v v' f : comm k k' -> comm v v' -> comm (dict_validate c k v f) (dict_validate (over_coll o c) k' v' f).
Proof.
  intros K V i s H. unfold dict_validate, over_coll. cbn [co_strict co_min co_max co_fail_fast]. pose proof (dict_loop_comm k k' v v') as X. go.
Qed.

(** ** Scalars *)
Lemma accept_comm A (m : matched A) k s : has s -> (forall a t, has t -> P (k a t) (k a (hush t))) -> P (accept m s k) (accept m (hush s) k).
Proof. intros H K. unfold accept. destruct m as [[a e]|e]; push; [apply K; hs|fin]. Qed.
Lemma any_comm : comm any_validate any_validate. Proof. intros i s H. unfold any_validate. go. Qed.
Lemma none_comm : comm none_validate none_validate. Proof. intros i s H. unfold none_validate. go. Qed.
Lemma bool_comm b : comm (bool_validate b) (bool_validate (ruled (op_strict o) b)).
Proof. intros i s H. unfold bool_validate. push. apply accept_comm; [hs|]. intros a t N. go. Qed.
Lemma int_comm m b c : comm (int_validate m b c) (int_validate m (ruled (op_strict o) b) c).
Proof. intros i s H. unfold int_validate. push. apply accept_comm; [hs|]. intros a t N. go. Qed.
Lemma float_comm m b c : comm (float_validate m b c) (float_validate m (ruled (op_strict o) b) c).
Proof. intros i s H. unfold float_validate. push. apply accept_comm; [hs|]. intros a t N. go. Qed.
Lemma str_comm a1 a2 a3 a4 c : comm (str_validate a1 a2 a3 a4 c) (str_validate a1 a2 a3 a4 (over_str o c)).
Proof.
  intros i s H. unfold str_validate, over_str. cbn [sc_strict sc_coerce_numbers sc_strip sc_min sc_max sc_pattern sc_to_lower sc_to_upper]. push. apply accept_comm; [hs|]. intros a t N. go.
Qed.
Lemma bytes_comm c : comm (bytes_validate c) (bytes_validate (over_bytes o c)).
Proof. intros i s H. unfold bytes_validate, over_bytes. cbn [bc_strict bc_mode bc_min bc_max]. push. apply accept_comm; [hs|]. intros a t N. go. Qed.
Lemma literal_comm a1 a2 a3 l : comm (literal_validate a1 a2 a3 l) (literal_validate a1 a2 a3 l). Proof. intros i s H. unfold literal_validate. go. Qed.
Lemma is_instance_comm a1 l : comm (is_instance_validate a1 l) (is_instance_validate a1 l). Proof. intros i s H. unfold is_instance_validate. go. Qed.

(** ** Wrappers *)
Lemma nullable_comm v v' : comm v v' -> comm (nullable v) (nullable v'). Proof. intros V i s H. unfold nullable. go. Qed.
Lemma chain_rest_comm l l' : Forall2 comm l l' -> forall v s, has s -> P (chain_rest l v s) (chain_rest l' v (hush s)).
Proof. induction 1 as [|w w' l l' V F IH]; intros v s H; cbn [chain_rest]; go. Qed.
Lemma chain_comm l l' : Forall2 comm l l' -> comm (chain_validate l) (chain_validate l').
Proof. intros [|w w' r r' V F] i s H; cbn [chain_validate]; [fin|]. pose proof (chain_rest_comm _ _ F) as X. go. Qed.
Lemma jop_comm a a' b b' : comm a a' -> comm b b' -> comm (json_or_python a b) (json_or_python a' b'). Proof. intros V W i s H. unfold json_or_python. go. Qed.
Lemma los_comm st a a' b b' : comm a a' -> comm b b' -> comm (lax_or_strict st a b) (lax_or_strict (ruled (op_strict o) st) a' b'). Proof. intros V W i s H. unfold lax_or_strict. go. Qed.
Lemma custom_comm t a a' : comm a a' -> comm (custom_error t a) (custom_error t a'). Proof. intros V i s H. unfold custom_error. go. Qed.
Lemma before_comm f own a a' : comm a a' -> comm (function_before f own a) (function_before f own a'). Proof. intros V i s H. unfold function_before. go. Qed.
Lemma after_comm f own a a' : comm a a' -> comm (function_after f own a) (function_after f own a'). Proof. intros V i s H. unfold function_after. go. Qed.
Lemma plain_comm f own : comm (function_plain f own) (function_plain f own). Proof. intros i s H. unfold function_plain. go. Qed.
Lemma run_wrap_same a a' s p : op_by_alias o = None -> op_by_name o = None -> has s -> comm a a' -> forall e, run_wrap a' (hush s) p e = run_wrap a s p e.
Proof.
  intros A B H V. induction p as [v|x|v l k IH]; intros e; cbn [run_wrap]; try reflexivity. rewrite h_handler.
  assert (N : has (handler_state s e)). { unfold has, opts in *. cbn. injection H as -> -> _ _. now rewrite A, B. }
  destruct (V (IPy v) _ N) as [-> _]. destruct (a (IPy v) (handler_state s e)) as [[w|err] t]; cbn [fst snd]; rewrite h_get_exact; [apply IH|]. destruct (to_exception l err); [apply IH|reflexivity].
Qed.
Lemma wrap_comm f own a a' : op_by_alias o = None -> op_by_name o = None -> comm a a' -> comm (function_wrap f own a) (function_wrap f own a').
Proof. intros A B V i s H. unfold function_wrap. push. rewrite (run_wrap_same a a' s _ A B H V). go. Qed.

(** ** Defaults *)
Inductive Po {A} : option (A * state) -> option (A * state) -> Prop :=
| PoNone : Po None None
| PoSome p p' : P p p' -> Po (Some p) (Some p').
Definition comm_w (w w' : with_default) : Prop :=
  wd_default_kind w' = wd_default_kind w /\ wd_on_error w' = wd_on_error w /\ wd_validate_default w' = wd_validate_default w /\ comm (wd_inner w) (wd_inner w').
Lemma default_comm f f' w w' l s : comm_w w w' -> has s -> (forall i t, has t -> Po (f i t) (f' i (hush t))) -> Po (default_value f w l s) (default_value f' w' l (hush s)).
Proof.
  intros (A & B & C & D) H F. unfold default_value. rewrite A, C. push. destruct (stored_default _ _) as [[d|]|e]; try (constructor; fin). destruct (wd_validate_default w); [|constructor; fin].
  destruct (F (IPy d) s H) as [|[r t] p' [-> N]]; [constructor|]. cbn [fst snd] in *. destruct r; constructor; fin.
Qed.
Lemma wd_comm n w w' : comm_w w w' -> forall i s, has s -> Po (wd_validate n w i s) (wd_validate n w' i (hush s)).
Proof.
  intros W. induction n as [|n IH]; intros i s H; cbn [wd_validate]; [constructor|]. cbv zeta.
  assert (U : forall e t, has t -> Po (match default_value (wd_validate n w) w None t with None => None | Some (VErr e', s') => Some (VErr e', s') | Some (VOk (Some v), s') => Some (VOk v, s') | Some (VOk None, s') => Some (VErr e, s') end)
    (match default_value (wd_validate n w') w' None (hush t) with None => None | Some (VErr e', s') => Some (VErr e', s') | Some (VOk (Some v), s') => Some (VOk v, s') | Some (VOk None, s') => Some (VErr e, s') end)).
  { intros e t N. destruct (default_comm _ _ w w' None t W N IH) as [|[r q] p' [-> M]]; [constructor|]. cbn [fst snd] in *. destruct r as [[v|]|x]; constructor; fin. }
  destruct (is_undefined i); [now apply U|]. destruct W as (A & B & C & D). rewrite B. destruct (D i s H) as [-> N]. destruct (wd_inner w i s) as [r t]. cbn [fst snd] in *.
  destruct r as [v|[]]; try (constructor; fin); try (now apply U); destruct (wd_on_error w); try (constructor; fin); now apply U.
Qed.
Lemma wd_cv_comm n w w' : comm_w w w' -> comm_cv (wd_cv n w) (wd_cv n w').
Proof.
  intros W. split; intros i s H; cbn [wd_cv cv_validate cv_default].
  - destruct (wd_comm n w w' W i s H) as [|p p' Q]; [fin|exact Q].
  - destruct (default_comm _ _ w w' i s W H (wd_comm n w w' W)) as [|p p' Q]; [fin|exact Q].
Qed.

(** ** Unions *)
Definition comm_choice (c c' : choice) : Prop := comm (ch_validator c) (ch_validator c') /\ ch_label c' = ch_label c.
Lemma push_same custom errs c c' l : comm_choice c c' -> push_errors custom errs c' l = push_errors custom errs c l.
Proof. intros [_ E]. unfold push_errors. now rewrite E. Qed.
Lemma ltr_comm custom cs cs' : Forall2 comm_choice cs cs' -> forall i errs s, has s -> P (ltr_loop custom cs i errs s) (ltr_loop custom cs' i errs (hush s)).
Proof.
  induction 1 as [|c c' cs cs' V F IH]; intros i errs s H; cbn [ltr_loop]; [fin|]. destruct (proj1 V i s H) as [-> N]. destruct (ch_validator c i s) as [r t]. cbn [fst snd] in *.
  destruct r as [v|[]]; try fin. rewrite (push_same _ _ _ _ _ V). now apply IH.
Qed.
Inductive PL : loop_end -> loop_end -> Prop :=
| PLTried b e s : has s -> PL (Tried b e s) (Tried b e (hush s))
| PLReturned r s : has s -> PL (Returned r s) (Returned r (hush s)).
Lemma smart_comm custom oe on cs cs' : Forall2 comm_choice cs cs' -> forall i b errs s, has s -> PL (smart_loop custom oe on cs i b errs s) (smart_loop custom oe on cs' i b errs (hush s)).
Proof.
  induction 1 as [|c c' cs cs' V F IH]; intros i b errs s H; cbn [smart_loop]; [now constructor|]. push.
  assert (N0 : has (set_fields_set None (set_exactness (Some Exact) s))) by hs.
  destruct (proj1 V i _ N0) as [-> N]. destruct (ch_validator c i _) as [r t]. cbn [fst snd] in *.
  destruct r as [v|[]]; try (now constructor).
  - push. destruct (st_exactness t) as [[]|], (st_fields_set t); try (now apply IH). push. constructor. hs.
  - rewrite (push_same _ _ _ _ _ V). now apply IH.
Qed.
Lemma union_comm m custom cs cs' : Forall2 comm_choice cs cs' ->
  comm (match m with UnionSmart => validate_smart custom cs | UnionLeftToRight => validate_left_to_right custom cs end) (match m with UnionSmart => validate_smart custom cs' | UnionLeftToRight => validate_left_to_right custom cs' end).
Proof.
  intros F i s H. destruct m; [|now apply ltr_comm]. unfold validate_smart. push. destruct (smart_comm custom (st_exactness s) (st_fields_set s) cs cs' F i None [] s H) as [b e t N|r t N]; [|fin].
  destruct b as [[[v e'] [k|]]|]; go.
Qed.
Lemma tagged_comm a1 a2 a3 a4 a5 d fa custom (l l' : list (pyval * validator)) : (match d with DLookup _ => op_strict o <> Some true | _ => True end) -> Forall2 (fun p q : pyval * validator => fst q = fst p /\ comm (snd p) (snd q)) l l' ->
  comm (tagged_union_validate a1 a2 a3 a4 a5 d fa custom l) (tagged_union_validate a1 a2 a3 a4 a5 d (ruled (op_from_attributes o) fa) custom l').
Proof.
  intros S F.
  assert (E : map fst l' = map fst l). { clear S. induction F as [|p q l l' [E _] F IH]; [reflexivity|]. cbn. now rewrite E, IH. }
  assert (X : forall tag i s, has s -> P (find_call_validator a1 a3 a4 a5 custom l tag i s) (find_call_validator a1 a3 a4 a5 custom l' tag i (hush s))).
  { intros tag i s H. unfold find_call_validator. rewrite E. destruct (lk_validate _ _ _ _ _) as [[id|]|e]; try fin.
    clear E S. revert id. induction F as [|[t v] [t' v'] l l' [_ V] F IH]; intros [|id]; cbn [nth_error]; try fin; [|apply IH]. cbn [snd] in V. go. }
  intros i s H. unfold tagged_union_validate. destruct d as [k|f].
  - push. cbv zeta. push. replace (strict_or (hush s) false) with (strict_or s false); [go|].
    unfold strict_or, has, opts in *. injection H as E1 _ _ _. rewrite E1. cbn. destruct (op_strict o) as [[]|]; try reflexivity. contradiction.
  - destruct (f (input_object i)) as [v|e]; [|fin]. destruct v; first [fin|now apply X].
Qed.

(** ** Classes *)
Lemma construct_comm c v v' i ex s : comm v v' -> has s -> P (model_construct c v i ex s) (model_construct c v' i ex (hush s)).
Proof. intros V H. unfold model_construct. go. Qed.
Lemma model_comm a1 c v v' : comm v v' -> comm (model_validate a1 c v) (model_validate a1 c v').
Proof. intros V i s H. pose proof (construct_comm c v v'). unfold model_validate. go. Qed.
Lemma dataclass_comm a1 c v v' : comm v v' -> comm (dataclass_validate a1 c v) (dataclass_validate a1 (over_dataclass o c) v').
Proof.
  intros V i s H. unfold dataclass_validate. change (set_dict_call (over_dataclass o c)) with (set_dict_call c). unfold over_dataclass. cbn [da_cls da_origin da_revalidate da_strict da_names]. go.
Qed.

(** ** Tuples *)
Definition hush_t (a : tacc) : tacc := {| ta_out := ta_out a; ta_errs := ta_errs a; ta_count := ta_count a; ta_iter := ta_iter a; ta_state := hush (ta_state a) |}.
Inductive PT : tres -> tres -> Prop :=
| PTDone a : has (ta_state a) -> PT (TDone a) (TDone (hush_t a))
| PTFail e s : has s -> PT (TFail e s) (TFail e (hush s)).
Inductive PB : buffered -> buffered -> Prop :=
| PBEnd a b n : has (ta_state a) -> PB (BEnd a b n) (BEnd (hush_t a) b n)
| PBReturn r r' : PT r r' -> PB (BReturn r) (BReturn r').
Section Tuple.
Variables (c c' : tuple_cfg) (i : input) (actual : option nat).
Hypotheses (Cmax : tu_max c' = tu_max c) (Cff : tu_fail_fast c' = tu_fail_fast c) (Cvar : tu_variadic c' = tu_variadic c) (Cvs : Forall2 comm_cv (tu_validators c) (tu_validators c')).
Lemma use_item_comm ix p p' a : has (ta_state a) -> P p p' -> PT (use_item c i actual ix p a) (use_item c' i actual ix p' (hush_t a)).
Proof.
  intros H [-> N]. destruct p as [[v|e] s]; cbn [fst snd use_item] in *.
  - unfold push_output_item. rewrite Cmax. cbv zeta. cbn [hush_t ta_out ta_errs]. destruct (tu_max c) as [mx|]; [destruct (mx <? _)|]; constructor; exact N.
  - destruct e; constructor; exact N.
Qed.
Lemma stop_same a : stop_now c' (hush_t a) = stop_now c a. Proof. unfold stop_now. now rewrite Cff. Qed.
Lemma items_comm vs vs' : Forall2 comm_cv vs vs' -> forall a, has (ta_state a) -> PT (tuple_items c i actual vs a) (tuple_items c' i actual vs' (hush_t a)).
Proof.
  induction 1 as [|v v' vs vs' V F IH]; intros a H; cbn [tuple_items]; [now constructor|].
  match goal with |- PT (match ?x with _ => _ end) (match ?y with _ => _ end) => assert (X : PT x y) end.
  { change (ta_iter (hush_t a)) with (ta_iter a). destruct (ti_next (ta_iter a)) as [[x|] it].
    - change (ta_move it (hush_t a)) with (hush_t (ta_move it a)). apply use_item_comm; [exact H|]. apply (cc_v _ _ V). exact H.
    - cbv zeta. change (ta_state (hush_t a)) with (hush (ta_state a)). change (ta_move it (hush_t a)) with (hush_t (ta_move it a)).
      destruct (cc_d _ _ V (Some (index_loc (ta_count (hush_t (ta_move it a)) - 1))) (ta_state a) H) as [-> N].
      destruct (cv_default v _ (ta_state a)) as [[[x|]|e] t]; cbn [fst snd] in *; constructor; exact N. }
  destruct X as [a' N|e s N]; [|now constructor]. rewrite stop_same. destruct (stop_now c a'); [now constructor|now apply IH].
Qed.
Lemma rest_comm v v' rest : comm_cv v v' -> forall a, has (ta_state a) -> PT (tuple_rest c i actual v rest a) (tuple_rest c' i actual v' rest (hush_t a)).
Proof.
  intros V. induction rest as [|[x|e] rest IH]; intros a H; cbn [tuple_rest]; try (now constructor).
  change (ta_iter (hush_t a)) with (ta_iter a). change (ta_move ?it (hush_t a)) with (hush_t (ta_move it a)). change (ta_state (hush_t a)) with (hush (ta_state a)). change (ta_count (hush_t a)) with (ta_count a).
  destruct (use_item_comm (ta_count a) _ _ (ta_move (snd (ti_next (ta_iter a))) a) H (cc_v _ _ V x _ H)) as [a' N|e s N]; [|now constructor].
  rewrite stop_same. destruct (stop_now c a'); [now constructor|now apply IH].
Qed.
Lemma buffered_comm v v' rest : comm_cv v v' -> forall buf ix a, has (ta_state a) -> PB (tuple_buffered c i actual v rest buf ix a) (tuple_buffered c' i actual v' rest buf ix (hush_t a)).
Proof.
  intros V. induction rest as [|[x|e] rest IH]; intros buf ix a H; cbn [tuple_buffered]; try (now constructor).
  destruct (buf ++ [x]) as [|y buf']; [constructor; now constructor|].
  change (ta_iter (hush_t a)) with (ta_iter a). change (ta_move ?it (hush_t a)) with (hush_t (ta_move it a)). change (ta_state (hush_t a)) with (hush (ta_state a)). change (ta_count (hush_t a)) with (ta_count a).
  destruct (use_item_comm (ta_count a) _ _ (ta_move (snd (ti_next (ta_iter a))) a) H (cc_v _ _ V y _ H)) as [a' N|e s N]; [|constructor; now constructor].
  rewrite stop_same. destruct (stop_now c a'); [constructor; now constructor|now apply IH].
Qed.
Lemma F_length l l' : Forall2 comm_cv l l' -> length l = length l'. Proof. induction 1; cbn; congruence. Qed.
Lemma skipn_F k : Forall2 comm_cv (skipn k (tu_validators c)) (skipn k (tu_validators c')).
Proof. revert k. induction Cvs as [|v v' l l' V F IH]; intros [|k]; cbn; auto. Qed.
Lemma firstn_F k : Forall2 comm_cv (firstn k (tu_validators c)) (firstn k (tu_validators c')).
Proof. revert k. induction Cvs as [|v v' l l' V F IH]; intros [|k]; cbn; auto. Qed.
Lemma variable_comm a : has (ta_state a) -> PT (tuple_variable c i actual a) (tuple_variable c' i actual (hush_t a)).
Proof.
  intros H. unfold tuple_variable. rewrite Cvar. destruct (tu_variadic c) as [k|].
  - destruct (skipn_F k) as [|v v' tail tail' V F]; [now constructor|].
    destruct (items_comm _ _ (firstn_F k) a H) as [a1 N|e s N]; [|now constructor]. rewrite stop_same. destruct (stop_now c a1); [now constructor|].
    destruct F as [|w w' tail tail' W F]; [now apply rest_comm|].
    change (ta_iter (hush_t a1)) with (ta_iter a1). replace (length (w' :: tail')) with (length (w :: tail)) by (cbn; f_equal; now apply F_length).
    destruct (ti_take (length (w :: tail)) (ta_iter a1)) as [buf it]. cbv zeta.
    set (a2 := {| ta_out := ta_out a1; ta_errs := ta_errs a1; ta_count := ta_count a1; ta_iter := it; ta_state := ta_state a1 |}).
    change {| ta_out := ta_out (hush_t a1); ta_errs := ta_errs (hush_t a1); ta_count := ta_count (hush_t a1); ta_iter := it; ta_state := ta_state (hush_t a1) |} with (hush_t a2).
    change (ta_count (hush_t a2)) with (ta_count a2).
    destruct (buffered_comm v v' (ti_rest it) V buf (ta_count a2) a2 N) as [a3 b n M|r r' M]; [|exact M].
    set (a5 := {| ta_out := ta_out a3; ta_errs := ta_errs a3; ta_count := n; ta_iter := {| ti_rest := map It b; ti_pos := 0; ti_err := None |}; ta_state := ta_state a3 |}).
    match goal with |- PT _ (match tuple_items _ _ _ _ ?z with _ => _ end) => change z with (hush_t a5) end.
    destruct (items_comm (w :: tail) (w' :: tail') (Forall2_cons _ _ W F) a5 M) as [a4 L|e s L]; [|now constructor].
    match goal with |- PT (TDone ?x) (TDone ?y) => change y with (hush_t x) end. now constructor.
  - destruct (items_comm _ _ Cvs a H) as [a1 N|e s N]; [|now constructor]. rewrite stop_same. destruct (stop_now c a1); [now constructor|].
    change (ta_iter (hush_t a1)) with (ta_iter a1). destruct (ti_next (ta_iter a1)) as [[x|] it].
    + rewrite <- (F_length _ _ Cvs). now constructor.
    + change (ta_move it (hush_t a1)) with (hush_t (ta_move it a1)). now constructor.
Qed.
End Tuple.
Lemma tuple_comm c vs vs' f : Forall2 comm_cv vs vs' -> comm (tuple_validate (mk_tuple c vs) f) (tuple_validate (mk_tuple (over_tuple o c) vs') f).
Proof.
  intros F i s H. unfold tuple_validate. cbn [mk_tuple over_tuple tu_strict tu_min tn_strict tn_min]. push. cbv zeta. push. destruct (f _ i) as [sq|e]; [|fin]. push.
  set (a := {| ta_out := []; ta_errs := []; ta_count := 0; ta_iter := {| ti_rest := sq_items sq; ti_pos := 0; ti_err := None |}; ta_state := floor_exactness (sq_exactness sq) (set_partial PartialOff s) |}).
  match goal with |- P _ (match tuple_variable _ _ _ ?z with _ => _ end) => change z with (hush_t a) end.
  assert (N : has (ta_state a)) by (cbn [ta_state a]; hs).
  destruct (variable_comm (mk_tuple c vs) (mk_tuple (over_tuple o c) vs') i (sq_len sq) eq_refl eq_refl eq_refl F a N) as [b M|e t M]; [|fin].
  change (ta_iter (hush_t b)) with (ta_iter b). change (ta_out (hush_t b)) with (ta_out b). change (ta_errs (hush_t b)) with (ta_errs b). change (ta_state (hush_t b)) with (hush (ta_state b)). go.
Qed.

(** ** Fields *)
Definition comm_field (f f' : field) : Prop := exists i v v', f = mk_field i v /\ f' = mk_field i v' /\ comm_cv v v'.
Ltac the_cv V := let A := fresh "CV" in let B := fresh "CD" in destruct V as [A B].
Lemma fields_comm c c' md i ba bn fs fs' : fc_loc_by_alias c' = fc_loc_by_alias c -> Forall2 comm_field fs fs' ->
  forall a s, has s -> P (fields_loop c md i ba bn fs a s) (fields_loop c' md i ba bn fs' a (hush s)).
Proof.
  intros L. induction 1 as [|f f' fs fs' (j & v & v' & -> & -> & V) F IH]; intros a s H; cbn [fields_loop mk_field f_name f_keys f_cv f_frozen f_required]; [fin|]. rewrite L. the_cv V. go.
Qed.
Lemma extras_comm c c' used : fc_extra c' = fc_extra c -> comm_opt (fc_extras c) (fc_extras c') -> comm_opt (fc_extras_keys c) (fc_extras_keys c') ->
  forall es out errors fset s, has s -> P (extras_loop c used es out errors fset s) (extras_loop c' used es out errors fset (hush s)).
Proof.
  intros E A B. induction es as [|[key kl value|e] es IH]; intros out errors fset s H; cbn [extras_loop]; try fin. rewrite E.
  destruct (fc_extras c) as [x|], (fc_extras c') as [x'|]; try contradiction; destruct (fc_extras_keys c) as [y|], (fc_extras_keys c') as [y'|]; try contradiction; cbn in A, B; go.
Qed.
Lemma model_fields_comm k fs fs' a a' b b' f : Forall2 comm_field fs fs' -> comm_opt a a' -> comm_opt b b' ->
  comm (model_fields_validate (mk_fields k fs a b) f) (model_fields_validate (mk_fields (over_fields o k) fs' a' b') f).
Proof.
  intros F A B i s H. unfold model_fields_validate.
  cbn [mk_fields over_fields fc_fields fc_extra fc_extras fc_extras_keys fc_strict fc_from_attributes fc_loc_by_alias fc_by_alias fc_by_name fo_extra fo_strict fo_from_attributes fo_loc_by_alias fo_by_alias fo_by_name].
  push. cbv zeta. push. on; [|on; fin].
  set (c := mk_fields k fs a b). set (c' := mk_fields (over_fields o k) fs' a' b').
  pose proof (extras_comm c c') as X. specialize (fun used => X used eq_refl A B).
  match goal with |- P (match rebind ?f ?s ?u with _ => _ end) (match rebind _ _ ?u' with _ => _ end) => assert (Y : P (rebind f s u) (rebind f (hush s) u')) end.
  { apply rebind_P; [reflexivity|intros ? ?; hs| |hs]. intros t N. now apply fields_comm. }
  both Y. go.
Qed.
Lemma td_comm c c' md i la p ba bn fs fs' : fc_loc_by_alias c' = fc_loc_by_alias c -> Forall2 comm_field fs fs' ->
  forall a s, has s -> P (td_loop c md i la p ba bn fs a s) (td_loop c' md i la p ba bn fs' a (hush s)).
Proof.
  intros L. induction 1 as [|f f' fs fs' (j & v & v' & -> & -> & V) F IH]; intros a s H; cbn [td_loop mk_field f_name f_keys f_cv f_frozen f_required]; [fin|]. rewrite L. the_cv V. go.
Qed.
Lemma td_extras_comm c c' used la p : fc_extra c' = fc_extra c -> comm_opt (fc_extras c) (fc_extras c') ->
  forall es out errors s, has s -> P (td_extras c used la p es out errors s) (td_extras c' used la p es out errors (hush s)).
Proof.
  intros E A. induction es as [|[key kl value|e] es IH]; intros out errors s H; cbn [td_extras]; try fin. rewrite E.
  destruct (fc_extras c) as [x|], (fc_extras c') as [x'|]; try contradiction; cbn in A; go.
Qed.
Lemma typed_dict_comm k fs fs' a a' f : Forall2 comm_field fs fs' -> comm_opt a a' ->
  comm (typed_dict_validate (mk_fields k fs a None) f) (typed_dict_validate (mk_fields (over_typed o k) fs' a' None) f).
Proof.
  intros F A i s H. unfold typed_dict_validate.
  cbn [mk_fields over_typed fc_fields fc_extra fc_extras fc_extras_keys fc_strict fc_from_attributes fc_loc_by_alias fc_by_alias fc_by_name fo_extra fo_strict fo_from_attributes fo_loc_by_alias fo_by_alias fo_by_name].
  push. cbv zeta. push. on; [|fin].
  set (c := mk_fields k fs a None). set (c' := mk_fields (over_typed o k) fs' a' None).
  pose proof (td_extras_comm c c') as X. specialize (fun used la p => X used la p eq_refl A).
  match goal with |- P (match rebind ?f ?s ?u with _ => _ end) (match rebind _ _ ?u' with _ => _ end) => assert (Y : P (rebind f s u) (rebind f (hush s) u')) end.
  { apply rebind_P; [reflexivity|intros ? ?; hs| |hs]. intros t N.
    pose proof (td_comm c c' a0 i (if is_active (st_partial s) then md_last_key a0 else None) (st_partial s) (validate_by_alias_or s (fo_by_alias k)) (validate_by_name_or s (fo_by_name k)) fs fs' eq_refl F) as Z. go. }
  both Y. go.
Qed.
(** ** Arguments *)
Definition comm_param (p p' : param) : Prop := exists i v v', p = mk_param i v /\ p' = mk_param i v' /\ comm_cv v v'.
Lemma params_comm c c' ai i ba bn ps ps' : ac_loc_by_alias c' = ac_loc_by_alias c -> Forall2 comm_param ps ps' ->
  forall ix a s, has s -> P (params_loop c ai i ba bn ix ps a s) (params_loop c' ai i ba bn ix ps' a (hush s)).
Proof.
  intros L. induction 1 as [|f f' fs fs' (j & v & v' & -> & -> & V) F IH]; intros ix a s H; cbn [params_loop mk_param pa_name pa_mode pa_keys pa_cv]; [fin|]. rewrite L. the_cv V. go.
Qed.
Lemma var_args_comm w w' : comm_opt w w' -> forall l ix a s, has s -> P (var_args_loop w ix l a s) (var_args_loop w' ix l a (hush s)).
Proof. intros W. destruct w as [w|], w' as [w'|]; try contradiction; cbn in W; induction l as [|x l IH]; intros ix a s H; cbn [var_args_loop]; go. Qed.
Lemma var_kwargs_comm c c' : ac_unpacked c' = ac_unpacked c -> ac_extra c' = ac_extra c -> comm_opt (ac_var_kwargs c) (ac_var_kwargs c') ->
  forall es r a s, has s -> P (var_kwargs_loop c es r a s) (var_kwargs_loop c' es r a (hush s)).
Proof.
  intros U E W. induction es as [|[key kl value|e] es IH]; intros r a s H; cbn [var_kwargs_loop]; try fin. rewrite U, E.
  destruct (ac_var_kwargs c) as [x|], (ac_var_kwargs c') as [x'|]; try contradiction; cbn in W; go.
Qed.
Lemma count_same ps ps' : Forall2 comm_param ps ps' -> forall n, positional_count_from n ps' = positional_count_from n ps.
Proof. induction 1 as [|f f' fs fs' (j & v & v' & -> & -> & V) F IH]; intros n; cbn; [reflexivity|]. now rewrite IH. Qed.
Lemma arguments_comm k ps ps' va va' vk vk' f : Forall2 comm_param ps ps' -> comm_opt va va' -> comm_opt vk vk' ->
  comm (arguments_validate (mk_args k ps va vk) f) (arguments_validate (mk_args (over_params o k) ps' va' vk') f).
Proof.
  intros F A B i s H. unfold arguments_validate. set (c := mk_args k ps va vk). set (c' := mk_args (over_params o k) ps' va' vk').
  assert (V1 : forall ai a t, has t -> P (var_args_stage c ai a t) (var_args_stage c' ai a (hush t))).
  { intros ai a t N. unfold var_args_stage. replace (positional_count c') with (positional_count c) by (unfold positional_count; cbn; symmetry; now apply count_same).
    pose proof (var_args_comm (ac_var_args c) (ac_var_args c') A) as X. go. }
  assert (V2 : forall ai a t, has t -> P (var_kwargs_stage c ai a t) (var_kwargs_stage c' ai a (hush t))).
  { intros ai a t N. unfold var_kwargs_stage. pose proof (var_kwargs_comm c c' eq_refl eq_refl B) as X. go. }
  assert (V3 : forall r a t, has t -> P (unpacked_stage c r a t) (unpacked_stage c' r a (hush t))).
  { intros r a t N. unfold unpacked_stage, args_finish. change (ac_unpacked c') with (ac_unpacked c). change (ac_var_kwargs c) with vk. change (ac_var_kwargs c') with vk'.
    destruct vk as [w|], vk' as [w'|]; try contradiction; cbn in B; go. }
  assert (V4 : forall ai ba bn t, has t -> P (params_loop c ai i ba bn 0 (ac_params c) aa_init t) (params_loop c' ai i ba bn 0 (ac_params c') aa_init (hush t))).
  { intros ai ba bn t N. now apply params_comm. }
  change (ac_by_alias c') with (ruled_opt (op_by_alias o) (ac_by_alias c)). change (ac_by_name c') with (ruled_opt (op_by_name o) (ac_by_name c)). go.
Qed.
Definition comm_dcf (p p' : dc_field) : Prop := exists i v v', p = mk_dcf i v /\ p' = mk_dcf i v' /\ comm_cv v v'.
Lemma dc_loop_comm c c' ai i ba bn fs fs' : dc_loc_by_alias c' = dc_loc_by_alias c -> dc_collect_init_only c' = dc_collect_init_only c -> Forall2 comm_dcf fs fs' ->
  forall ix a s, has s -> P (dc_loop c ai i ba bn ix fs a s) (dc_loop c' ai i ba bn ix fs' a (hush s)).
Proof.
  intros L C. induction 1 as [|f f' fs fs' (j & v & v' & -> & -> & V) F IH]; intros ix a s H; cbn [dc_loop]; [fin|].
  assert (S : forall x b, da_set c' (mk_dcf j v') x b = da_set c (mk_dcf j v) x b). { intros x b. unfold da_set. now rewrite C. }
  cbn [mk_dcf df_name df_keys df_cv df_kw_only df_init df_init_only]. fold (mk_dcf j v). fold (mk_dcf j v'). rewrite L.
  the_cv V. cbv zeta. push. on.
  - child. destruct r as [[x|]|[]]; try rewrite S; go.
  - on; [|fin]. on; [|fin]. on; [on|on].
    + go.
    + child. destruct r as [x|[]]; try rewrite S; go.
    + on. child. destruct r as [x|[]]; try rewrite S; go.
    + child. destruct r as [[x|]|[]]; try rewrite S; go.
Qed.
Lemma dc_extras_comm c c' : dc_extra c' = dc_extra c -> comm_opt (dc_extras c) (dc_extras c') -> forall es a s, has s -> P (dc_extras_loop c es a s) (dc_extras_loop c' es a (hush s)).
Proof.
  intros E A. induction es as [|[key kl value|e] es IH]; intros a s H; cbn [dc_extras_loop]; try fin. rewrite E.
  destruct (dc_extras c) as [x|], (dc_extras c') as [x'|]; try contradiction; cbn in A; go.
Qed.
Lemma dc_count_same fs fs' : Forall2 comm_dcf fs fs' -> length (filter (fun f => negb (df_kw_only f)) fs') = length (filter (fun f => negb (df_kw_only f)) fs).
Proof. induction 1 as [|f f' fs fs' (j & v & v' & -> & -> & V) F IH]; [reflexivity|]. cbn. destruct (dn_kw_only j); cbn; now rewrite IH. Qed.
Lemma dataclass_args_comm k fs fs' a a' f : Forall2 comm_dcf fs fs' -> comm_opt a a' ->
  comm (dataclass_args_validate (mk_dc k fs a) f) (dataclass_args_validate (mk_dc (over_dc o k) fs' a') f).
Proof.
  intros F A i s H. unfold dataclass_args_validate. cbv zeta. push. on; [|fin]. set (c := mk_dc k fs a). set (c' := mk_dc (over_dc o k) fs' a').
  apply rebind_P; [reflexivity|intros ? ?; hs| |hs]. intros t N.
  assert (V1 : forall ba bn u, has u -> P (dc_loop c a0 i ba bn 0 (dc_fields c) da_init0 u) (dc_loop c' a0 i ba bn 0 (dc_fields c') da_init0 (hush u))).
  { intros ba bn u M. now apply dc_loop_comm. }
  assert (V2 : forall b u, has u -> P (dc_kwargs_stage c a0 b u) (dc_kwargs_stage c' a0 b (hush u))).
  { intros b u M. unfold dc_kwargs_stage. pose proof (dc_extras_comm c c' eq_refl A) as X. go. }
  assert (V3 : forall b, dc_args_stage c' a0 b = dc_args_stage c a0 b). { intros b. unfold dc_args_stage, dc_positional_count. cbn [dc_fields c c' mk_dc]. now rewrite (dc_count_same _ _ F). }
  assert (V4 : forall b u, has u -> P (dc_finish c b u) (dc_finish c' b (hush u))). { intros b u M. unfold dc_finish. change (dc_collect_init_only c') with (dc_collect_init_only c). go. }
  change (dc_by_alias c') with (ruled_opt (op_by_alias o) (dc_by_alias c)). change (dc_by_name c') with (ruled_opt (op_by_name o) (dc_by_name c)).
  push. child. destruct r as [b|e]; [|fin]. rewrite V3. go.
Qed.

(** ** Whole schemas *)
Lemma plain_cv v v' : comm v v' -> comm_cv (no_default v) (no_default v').
Proof. intros V. split; [exact V|]. intros l s H. cbn. fin. Qed.
Section Whole.
Variable E : env.
Lemma eval_comm ref ref' : (forall k, comm_cv (ref k) (ref' k)) -> forall sc, everywhere (sayable o) sc -> comm_cv (eval E ref sc) (eval E ref' (over o sc)).
Proof.
  intros R sc. induction sc as [sc IH] using schema_children_ind. intros W. inversion W as [sc' Sy Ch]; subst sc'.
  assert (K : forall c, In c (children sc) -> comm_cv (eval E ref c) (eval E ref' (over o c))) by auto.
  assert (KV : forall c, In c (children sc) -> comm (cv_validate (eval E ref c)) (cv_validate (eval E ref' (over o c)))) by (intros c I; apply (cc_v _ _ (K c I))).
  assert (KO : forall x, (forall c, In c (opt_list x) -> In c (children sc)) -> comm_opt (option_map (fun sc => cv_validate (eval E ref sc)) x) (option_map (fun sc => cv_validate (eval E ref' sc)) (option_map (over o) x))).
  { intros [x|] I; cbn; [|exact Logic.I]. apply KV, I. now left. }
  clear IH W Ch. destruct sc; cbn [eval over]; cbn [children] in *; try (apply plain_cv).
  - apply any_comm. - apply none_comm. - apply bool_comm. - apply int_comm. - apply float_comm. - apply str_comm. - apply bytes_comm. - apply literal_comm. - apply is_instance_comm.
  - apply list_comm, KO. auto.
  - apply set_validate_comm, KV. now left.
  - apply tuple_comm. clear - K. induction items as [|x l IH]; cbn; constructor; [apply K; now left|apply IH; intros c I; apply K; now right].
  - apply dict_comm; apply KV; cbn; auto.
  - apply nullable_comm, KV. now left.
  - apply wd_cv_comm. split; [reflexivity|]. split; [reflexivity|]. split; [reflexivity|]. apply KV. now left.
  - apply chain_comm. clear - KV. induction steps as [|x l IH]; cbn; constructor; [apply KV; now left|apply IH; intros c I; apply KV; now right].
  - apply jop_comm; apply KV; cbn; auto.
  - apply los_comm; apply KV; cbn; auto.
  - apply custom_comm, KV. now left.
  - apply before_comm, KV. now left.
  - apply after_comm, KV. now left.
  - apply plain_comm.
  - destruct Sy as [A B]. apply wrap_comm; auto. apply KV. now left.
  - apply union_comm. clear - KV. induction choices as [|[x n] l IH]; cbn; constructor; [split; [apply KV; now left|reflexivity]|apply IH; intros c I; apply KV; now right].
  - apply tagged_comm; [destruct d; exact Sy|]. clear - KV. induction choices as [|[t x] l IH]; cbn; constructor; [split; [reflexivity|apply KV; now left]|apply IH; intros c I; apply KV; now right].
  - apply model_fields_comm; [|apply KO; intros; apply in_or_app; right; apply in_or_app; auto|apply KO; intros; apply in_or_app; right; apply in_or_app; auto].
    assert (K' : forall c, In c (map snd fields) -> comm_cv (eval E ref c) (eval E ref' (over o c))) by (intros; apply K; apply in_or_app; auto). clear - K'.
    induction fields as [|[t x] l IH]; cbn; constructor; [exists t; eexists _, _; split; [reflexivity|split; [reflexivity|]]; apply K'; now left|apply IH; intros c I; apply K'; now right].
  - apply typed_dict_comm; [|apply KO; intros; apply in_or_app; auto].
    assert (K' : forall c, In c (map snd fields) -> comm_cv (eval E ref c) (eval E ref' (over o c))) by (intros; apply K; apply in_or_app; auto). clear - K'.
    induction fields as [|[t x] l IH]; cbn; constructor; [exists t; eexists _, _; split; [reflexivity|split; [reflexivity|]]; apply K'; now left|apply IH; intros c I; apply K'; now right].
  - apply arguments_comm; [|apply KO; intros; apply in_or_app; right; apply in_or_app; auto|apply KO; intros; apply in_or_app; right; apply in_or_app; auto].
    assert (K' : forall c, In c (map snd params) -> comm_cv (eval E ref c) (eval E ref' (over o c))) by (intros; apply K; apply in_or_app; auto). clear - K'.
    induction params as [|[t x] l IH]; cbn; constructor; [exists t; eexists _, _; split; [reflexivity|split; [reflexivity|]]; apply K'; now left|apply IH; intros c I; apply K'; now right].
  - apply dataclass_args_comm; [|apply KO; intros; apply in_or_app; auto].
    assert (K' : forall c, In c (map snd fields) -> comm_cv (eval E ref c) (eval E ref' (over o c))) by (intros; apply K; apply in_or_app; auto). clear - K'.
    induction fields as [|[t x] l IH]; cbn; constructor; [exists t; eexists _, _; split; [reflexivity|split; [reflexivity|]]; apply K'; now left|apply IH; intros c I; apply K'; now right].
  - apply model_comm, KV. now left.
  - apply dataclass_comm, KV. now left.
  - apply R.
Qed.
Lemma refs_comm defs defs' : (forall k, defs' k = option_map (over o) (defs k)) -> (forall k d, defs k = Some d -> everywhere (sayable o) d) -> forall fuel depth k, comm_cv (refs E defs fuel depth k) (refs E defs' fuel depth k).
Proof.
  intros D' D. induction fuel as [|fuel IH]; intros depth k; cbn [refs]; [split; intros i s H; cbn; fin|].
  rewrite D'. destruct (defs k) as [sc|] eqn:Ek; cbn [option_map]; [|split; intros i s H; cbn; fin].
  assert (C : forall n, comm_cv (eval E (refs E defs fuel n) sc) (eval E (refs E defs' fuel n) (over o sc))).
  { intros n. apply eval_comm; [intros j; apply IH|eapply D; eassumption]. }
  split; cbn [cv_validate cv_default].
  - intros i s H. cbv zeta. rewrite h_partial. destruct i; try (apply (cc_v _ _ (C _)); hs). destruct (guard_limit <=? depth); [fin|]. apply (cc_v _ _ (C _)); hs.
  - apply (cc_d _ _ (C _)).
Qed.
Theorem run_comm defs defs' fuel sc : (forall k, defs' k = option_map (over o) (defs k)) -> holds_of (sayable o) defs sc -> comm (run E defs fuel sc) (run E defs' fuel (over o sc)).
Proof. intros D' [S D]. unfold run. apply cc_v, eval_comm; [intros k; now apply refs_comm|exact S]. Qed.
End Whole.
End Opts.
