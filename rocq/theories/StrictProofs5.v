From Coq Require Import List NArith ZArith Bool Lia.
From Verif Require Import Base Float64 IntParse Numbers BytesCodec Values VState LookupKey Collections Child Inputs Scalars Literal Wrappers Union TaggedUnion Tuple ModelFields TypedDict Assign Arguments Classes Interp InterpSpec InterpProofs StrictSpec StrictProofs StrictProofs2 StrictProofs3 StrictProofs4.
Import ListNotations.
Open Scope nat_scope.

(** ** Readers *)
Ltac cut1 := match goal with |- context [match ?x with _ => _ end] => lazymatch x with context [match _ with _ => _ end] => fail | _ => destruct x eqn:? end end.
Lemma bool_reads : reads validate_bool.
Proof.
  intros [v|[]|t|v]; cbn; try exact I; try (intros; reflexivity).
  - destruct (strip v); try exact I. intros; reflexivity.
  - unfold in_str_as_bool. destruct (str_as_bool t); [cbn; intros; reflexivity|exact I].
  - destruct (as_str v) as [t|]; [|exact I]. unfold in_str_as_bool. destruct (str_as_bool t); [cbn; intros; reflexivity|exact I].
Qed.
Lemma str_int_reads md i t : match in_str_as_int md i t with VOk q => True | VErr e => quiet e end.
Proof. unfold in_str_as_int. destruct (str_as_int md t); exact I. Qed.
Lemma int_reads md : reads (validate_int md).
Proof.
  intros [v|[]|t|v]; cbn; try exact I; try (intros; reflexivity).
  - destruct v; cbn; try exact I; try (intros; reflexivity). destruct (strip v); try exact I; intros; reflexivity.
  - pose proof (str_int_reads md (IKey t) t). destruct (in_str_as_int _ _ _); cbn; [intros; reflexivity|assumption].
  - destruct (as_str v) as [t|]; [|exact I]. pose proof (str_int_reads md (IStrings v) t). destruct (in_str_as_int _ _ _); cbn; [intros; reflexivity|assumption].
Qed.
Lemma str_float_reads pf i t : match in_str_as_float pf i t with VOk q => True | VErr e => quiet e end.
Proof. unfold in_str_as_float, val_err. repeat first [exact I | cut1]. Qed.
Lemma float_reads pf : reads (validate_float pf).
Proof.
  assert (P : forall v, match match extract_f64 v with Some f => if is_bool v then @val_err (f64 * exactness) EFloatType (IPy v) else VOk (f, Strict) | None => val_err EFloatType (IPy v) end with
    | VOk q => forall st : bool, (if st then match extract_f64 v with Some f => if is_bool v then if st then val_err EFloatType (IPy v) else VOk (f, Lax) else VOk (f, Strict) | None => val_err EFloatType (IPy v) end
        else match maybe_as_string v EFloatParsing with VErr e => VErr e | VOk (Some t) => lax (in_str_as_float pf (IPy v) t)
             | VOk None => match extract_f64 v with Some f => if is_bool v then if st then val_err EFloatType (IPy v) else VOk (f, Lax) else VOk (f, Strict) | None => val_err EFloatType (IPy v) end end) = VOk q
    | VErr e => quiet e end).
  { intros v. unfold extract_f64, is_bool, maybe_as_string. destruct (strip v); try exact I; cbv zeta; try destruct (f_is_infinite _); try exact I; intros []; reflexivity. }
  intros [v|[]|t|v]; try exact I; try exact (fun st : bool => eq_refl).
  - destruct v; first [ exact (fun st : bool => eq_refl) | match goal with |- context [IPy ?v] => exact (P v) end ].
  - cbn. pose proof (str_float_reads pf (IKey t) t). destruct (in_str_as_float _ _ _); cbn; [intros; reflexivity|assumption].
  - cbn. destruct (as_str v) as [t|]; [|exact I]. pose proof (str_float_reads pf (IStrings v) t). destruct (in_str_as_float _ _ _); cbn; [intros; reflexivity|assumption].
Qed.
Lemma str_reads ps f2s c : reads (fun st => validate_str ps f2s st c).
Proof.
  intros [v|[]|t|v]; cbn; try exact I; try (intros; reflexivity).
  - destruct v; cbn; try exact I; try (intros; reflexivity). destruct (strip v); try exact I; intros; reflexivity.
  - destruct (as_str v) as [t|]; [cbn; intros; reflexivity|exact I].
Qed.
Lemma bytes_reads m : reads (fun st => validate_bytes st m).
Proof.
  intros [v|[]|t|v]; cbn; try exact I.
  - destruct v; cbn; try exact I; try (intros; reflexivity). destruct (strip v); try exact I; intros; reflexivity.
  - unfold in_deserialize. destruct (deserialize_string m s); [cbn; intros; reflexivity|exact I].
  - unfold in_deserialize. destruct (deserialize_string m t); [cbn; intros; reflexivity|exact I].
  - destruct (as_str v) as [t|]; [|exact I]. unfold in_deserialize. destruct (deserialize_string m t); [cbn; intros; reflexivity|exact I].
Qed.
Lemma list_reads : reads validate_list.
Proof. intros [v|[]|t|v]; cbn; try exact I; try (intros; reflexivity). destruct (strip v); try exact I; intros; reflexivity. Qed.
Lemma tuple_reads : reads validate_tuple.
Proof. intros [v|[]|t|v]; cbn; try exact I; try (intros; reflexivity). destruct (strip v); try exact I; intros; reflexivity. Qed.
Lemma set_reads : reads validate_set.
Proof. intros [v|[]|t|v]; cbn; try exact I; try (intros; reflexivity). destruct (strip v); try exact I; intros; reflexivity. Qed.
Lemma frozenset_reads : reads validate_frozenset.
Proof. intros [v|[]|t|v]; cbn; try exact I; try (intros; reflexivity). destruct (strip v); try exact I; intros; reflexivity. Qed.
Lemma py_md_good repr d : good_md (py_mdict repr d).
Proof. split; [|split]; cbn; try discriminate. intros es [= <-]. apply Forall_forall. intros x X. apply in_map_iff in X. destruct X as (? & <- & _). exact I. Qed.
Lemma json_md_good l : good_md (json_mdict l).
Proof. split; [|split]; cbn; try discriminate. intros es [= <-]. apply Forall_forall. intros x X. apply in_map_iff in X. destruct X as (? & <- & _). exact I. Qed.
Lemma attr_md_good ga v kw : good_md (attr_mdict ga v kw).
Proof.
  split; [|split]; cbn; try discriminate.
  - intros k e. unfold py_get_attr. destruct (match kw with Some d => py_get_dict_item k d | None => None end); [discriminate|]. destruct (simple_py_get_attr ga k v); [discriminate|]. intros [= <-]. exact I.
  - intros es [= <-]. constructor.
Qed.
Lemma new_value_quiet v e : new_value v = VErr e -> quiet e.
Proof. unfold new_value. destruct (as_str v), (dict_items v); try discriminate. intros [= <-]. exact I. Qed.
Lemma new_key_quiet v e : new_key v = VErr e -> quiet e.
Proof. unfold new_key. destruct (as_str v); try discriminate. intros [= <-]. exact I. Qed.
Lemma strings_md_good repr d : good_md (strings_mdict repr d).
Proof.
  split; [|split]; cbn; try discriminate.
  - intros k e. destruct (py_get_dict_item k d) as [[p v]|]; [|discriminate]. destruct (new_value v) eqn:N; [discriminate|]. intros [= <-]. exact (new_value_quiet _ _ N).
  - intros es [= <-]. apply Forall_forall. intros x X. apply in_map_iff in X. destruct X as ([k v] & <- & _). cbn. destruct (new_key k) eqn:N; [destruct (new_value v) eqn:M; [exact I|exact (new_value_quiet _ _ M)]|exact (new_key_quiet _ _ N)].
Qed.
Lemma dict_md_good repr st i md : validate_dict repr st i = VOk md -> good_md md.
Proof.
  destruct i as [v|[]|t|v]; cbn; try discriminate.
  - destruct (dict_items v); [|discriminate]. intros [= <-]. apply py_md_good.
  - intros [= <-]. apply json_md_good.
  - destruct (as_str v), (dict_items v); try discriminate. intros [= <-]. apply strings_md_good.
Qed.
Lemma dict_reads repr : reads (validate_dict repr).
Proof.
  intros [v|[]|t|v]; cbn; try exact I; try (intros; reflexivity).
  - destruct (dict_items v); [cbn; intros; reflexivity|exact I].
  - destruct (as_str v), (dict_items v); try exact I. intros; reflexivity.
Qed.
Lemma entries_reads repr : reads (dict_entries repr).
Proof.
  intros i. unfold dict_entries. pose proof (dict_reads repr i) as H. destruct (validate_dict repr true i) as [md|e] eqn:V; [|exact H].
  apply dict_md_good in V. destruct (md_iter md) eqn:MI; [intros st; now rewrite H|]. exact (proj1 (proj2 V) _ MI).
Qed.
Lemma entries_good repr st i l : dict_entries repr st i = VOk l -> Forall good_entry l.
Proof. unfold dict_entries. destruct (validate_dict repr st i) as [md|] eqn:V; [|discriminate]. apply dict_md_good in V. apply (proj2 (proj2 V)). Qed.
Lemma mf_reads repr ga : reads2 (validate_model_fields repr ga).
Proof.
  assert (B : forall i, match validate_dict repr true i with VOk md => good_md md /\ forall st, validate_dict repr st i = VOk md | VErr e => quiet e end).
  { intros i. pose proof (dict_reads repr i) as H. destruct (validate_dict repr true i) as [md|e] eqn:V; [|exact H]. split; [exact (dict_md_good _ _ _ _ V)|exact H]. }
  intros fa [v|j|t|v]; cbn [validate_model_fields]; try apply B. destruct fa; [|apply B].
  destruct (dict_items v); [split; [apply py_md_good|intros; reflexivity]|]. destruct (from_attributes_applicable v); [split; [apply attr_md_good|intros; reflexivity]|].
  destruct v as [| | | | | | |[|obj [|kw [|]]]| | | | |]; try exact I. destruct (dict_items kw); [|exact I]. destruct (from_attributes_applicable obj); [|exact I]. split; [apply attr_md_good|intros; reflexivity].
Qed.
Lemma args_good repr i ai : validate_args repr i = VOk ai -> good_args ai.
Proof.
  unfold good_args. destruct i as [v|[]|t|v]; cbn; try discriminate.
  - destruct (dict_items v); [intros [= <-]; apply py_md_good|]. destruct (as_args_kwargs v) as [[l [kw|]]|]; [intros [= <-]; apply py_md_good|intros [= <-]; exact I|]. destruct (strip v); try discriminate; intros [= <-]; exact I.
  - intros [= <-]. exact I.
  - intros [= <-]. apply json_md_good.
Qed.
Lemma args_quiet repr i e : validate_args repr i = VErr e -> quiet e.
Proof.
  destruct i as [v|[]|t|v]; cbn; try discriminate; try (intros [= <-]; exact I).
  destruct (dict_items v); [discriminate|]. destruct (as_args_kwargs v) as [[l [kw|]]|]; try discriminate. destruct (strip v); try discriminate; intros [= <-]; exact I.
Qed.
Lemma dargs_good repr i ai : validate_dataclass_args repr i = VOk ai -> good_args ai.
Proof.
  unfold good_args. destruct i as [v|[]|t|v]; cbn; try discriminate.
  - destruct (dict_items v); [intros [= <-]; apply py_md_good|]. destruct (as_args_kwargs v) as [[l [kw|]]|]; [intros [= <-]; apply py_md_good|intros [= <-]; exact I|discriminate].
  - intros [= <-]. apply json_md_good.
  - destruct (as_str v), (dict_items v); try discriminate. intros [= <-]. apply strings_md_good.
Qed.
Lemma dargs_quiet repr i e : validate_dataclass_args repr i = VErr e -> quiet e.
Proof.
  destruct i as [v|[]|t|v]; cbn; try discriminate; try (intros [= <-]; exact I).
  - destruct (dict_items v); [discriminate|]. destruct (as_args_kwargs v) as [[l [kw|]]|]; try discriminate; intros [= <-]; exact I.
  - destruct (as_str v), (dict_items v); try discriminate; intros [= <-]; exact I.
Qed.

(** ** Scalars *)
Lemma accept_sub A (f : bool -> input -> matched A) d i s1 s2 k : reads f -> R s1 s2 -> (forall a s1 s2, R s1 s2 -> Sub never (k a s1) (k a s2)) ->
  Sub never (accept (f (strict_or s1 d) i) s1 k) (accept (f (strict_or s2 d) i) s2 k).
Proof.
  intros F H K. destruct (read_cases _ f d i s1 s2 F H) as [(e & EQ & Q)|([q x] & EQ & EQ2)]; unfold accept; rewrite EQ; [bad|]. rewrite EQ2. apply K. rs.
Qed.
Ltac leaf := repeat first [ bad | cut1 ].
Lemma bool_sub d : sub (bool_validate d).
Proof. intros i s1 s2 H. apply (accept_sub _ _ _ _ _ _ _ bool_reads H). intros. bad. Qed.
Lemma int_sub md d c : sub (int_validate md d c).
Proof. intros i s1 s2 H. apply (accept_sub _ _ _ _ _ _ _ (int_reads md) H). intros a t1 t2 T. leaf. Qed.
Lemma float_sub pf d c : sub (float_validate pf d c).
Proof. intros i s1 s2 H. apply (accept_sub _ _ _ _ _ _ _ (float_reads pf) H). intros a t1 t2 T. leaf. Qed.
Lemma str_sub ps f2s lo up c : sub (str_validate ps f2s lo up c).
Proof.
  intros i s1 s2 H. apply (accept_sub _ (fun st => validate_str ps f2s st (sc_coerce_numbers c)) _ _ _ _ _ (str_reads ps f2s _) H). intros a t1 t2 T. cbv zeta.
  destruct (too_short _ _); [bad|]. destruct (too_long _ _); [bad|]. destruct (match sc_pattern c with Some p => _ | None => _ end) as [[]|]; bad.
Qed.
Lemma bytes_sub c : sub (bytes_validate c).
Proof.
  intros i s1 s2 H. apply (accept_sub _ (fun st => validate_bytes st (bc_mode c)) _ _ _ _ _ (bytes_reads _) H). intros a t1 t2 T. leaf.
Qed.

(** ** Wrappers *)
Inductive SubO : option (vres pyval * state) -> option (vres pyval * state) -> Prop :=
| SONone x2 : SubO None x2
| SOBad e t x2 : quiet e -> R t t -> SubO (Some (VErr e, t)) x2
| SOSome r1 r2 : Sub never r1 r2 -> SubO (Some r1) (Some r2).
Inductive SubOD : option (vres (option pyval) * state) -> option (vres (option pyval) * state) -> Prop :=
| SDNone x2 : SubOD None x2
| SDBad e t x2 : quiet e -> R t t -> SubOD (Some (VErr e, t)) x2
| SDSome r1 r2 : Sub never r1 r2 -> SubOD (Some r1) (Some r2).
Lemma data_same s1 s2 : R s1 s2 -> x_data (st_extra s1) = x_data (st_extra s2).
Proof. intros H. apply ex_fields in H. cbv zeta in H. tauto. Qed.
Lemma dv_sub val w l : (forall i s1 s2, R s1 s2 -> SubO (val i s1) (val i s2)) -> forall s1 s2, R s1 s2 -> SubOD (default_value val w l s1) (default_value val w l s2).
Proof.
  intros V s1 s2 H. unfold default_value. rewrite (data_same _ _ H). destruct (stored_default (wd_default_kind w) (x_data (st_extra s2))) as [[d|]|e] eqn:SD.
  - destruct (wd_validate_default w); [|apply SDSome; bad]. destruct (V (IPy d) s1 s2 H) as [x2|e t x2 Q T|r1 r2 K]; [constructor|apply SDBad; [|exact T]; destruct l; [now apply quiet_outer|exact Q]|].
    destruct K as [e t r Q T|? ? ? []|a t1 t2 T]; [apply SDBad; [|exact T]; destruct l; [now apply quiet_outer|exact Q]|apply SDSome; bad].
  - apply SDSome; bad.
  - apply SDBad; [|rs]. destruct (wd_default_kind w) as [| |f td]; try discriminate. cbn in SD. destruct (f _); [discriminate|]. injection SD as <-. exact I.
Qed.
Lemma wd_sub n w : sub (wd_inner w) -> wd_on_error w = OnRaise -> forall i s1 s2, R s1 s2 -> SubO (wd_validate n w i s1) (wd_validate n w i s2).
Proof.
  intros V O. induction n as [|n IH]; intros i s1 s2 H; cbn [wd_validate]; [constructor|]. cbv zeta. rewrite O. destruct (is_undefined i).
  - destruct (dv_sub (wd_validate n w) w None IH s1 s2 H) as [x2|e t x2 Q T|r1 r2 K]; [constructor|now constructor|]. destruct K as [e t r Q T|? ? ? []|[a|] t1 t2 T]; [now constructor|apply SOSome; bad|apply SOBad; [exact I|rs]].
  - destruct (V i s1 s2 H) as [e t r Q T|? ? ? []|a t1 t2 T]; [|apply SOSome; bad]. destruct e; try contradiction Q; now apply SOBad.
Qed.
Lemma wd_csub n w : sub (wd_inner w) -> wd_on_error w = OnRaise -> csub (wd_cv n w).
Proof.
  intros V O. split.
  - intros i s1 s2 H. cbn. destruct (wd_sub n w V O i s1 s2 H) as [x2|e t x2 Q T|r1 r2 K]; [bad|bad|exact K].
  - intros l s1 s2 H. cbn. destruct (dv_sub (wd_validate n w) w l (wd_sub n w V O) s1 s2 H) as [x2|e t x2 Q T|r1 r2 K]; [bad|bad|exact K].
Qed.
Lemma nd_csub v : sub v -> csub (no_default v). Proof. intros V. split; [exact V|]. intros l s1 s2 H. cbn. bad. Qed.
Lemma any_sub : sub any_validate. Proof. intros i s1 s2 H. unfold any_validate. bad. Qed.
Lemma none_sub : sub none_validate. Proof. intros i s1 s2 H. unfold none_validate. destruct (is_none_input i); bad. Qed.
Lemma nullable_sub v : sub v -> sub (nullable v). Proof. intros V i s1 s2 H. unfold nullable. destruct (is_none_input i); [bad|now apply V]. Qed.
Lemma chain_rest_sub l : Forall sub l -> forall v s1 s2, R s1 s2 -> Sub never (chain_rest l v s1) (chain_rest l v s2).
Proof. induction 1 as [|x l X F IH]; intros v s1 s2 H; cbn [chain_rest]; [bad|]. kid; try bad. now apply IH. Qed.
Lemma chain_sub l : Forall sub l -> sub (chain_validate l).
Proof. intros F i s1 s2 H. unfold chain_validate. destruct F as [|x l X F]; [bad|]. kid; try bad. now apply chain_rest_sub. Qed.
Lemma jop_sub j p : sub j -> sub p -> sub (json_or_python j p).
Proof.
  intros J P i s1 s2 H. unfold json_or_python. assert (E : x_input_type (st_extra s1) = x_input_type (st_extra s2)) by (apply ex_fields in H; cbv zeta in H; tauto). rewrite E. destruct (x_input_type (st_extra s2)); [now apply P|now apply J..].
Qed.
Lemma custom_sub t v : sub v -> sub (custom_error t v).
Proof. intros V i s1 s2 H. unfold custom_error. kid; bad. Qed.
Definition plainly (f : pyfun) : Prop := forall v inf e, f v inf = inr e -> ordinary e.
Lemma convert_quiet e i : ordinary e -> quiet (convert_err e i). Proof. destruct e as [| | | | |[|]| | |]; easy. Qed.
Lemma call_cases f own v i s1 s2 : plainly f -> R s1 s2 -> call_fun f own v i s1 = call_fun f own v i s2 /\ (forall e, call_fun f own v i s2 = VErr e -> quiet e).
Proof.
  intros P H. unfold call_fun. rewrite (info_same _ _ _ H). split; [reflexivity|]. intros e. destruct (f v (info_of own s2)) eqn:F; [discriminate|]. intros [= <-]. apply convert_quiet. exact (P _ _ _ F).
Qed.
Lemma before_sub f own v : plainly f -> sub v -> sub (function_before f own v).
Proof.
  intros P V i s1 s2 H. unfold function_before. destruct (call_cases f own (input_object i) i s1 s2 P H) as [-> Q]. destruct (call_fun f own (input_object i) i s2) as [x|e]; [now apply V|]. specialize (Q _ eq_refl). bad.
Qed.
Lemma after_sub f own v : plainly f -> sub v -> sub (function_after f own v).
Proof.
  intros P V i s1 s2 H. unfold function_after. kid; try bad. destruct (call_cases f own v0 i t t0 P T) as [-> Q]. destruct (call_fun f own v0 i t0) as [x|e]; [bad|]. specialize (Q _ eq_refl). bad.
Qed.
Lemma plain_sub f own : plainly f -> sub (function_plain f own).
Proof.
  intros P i s1 s2 H. unfold function_plain. destruct (call_cases f own (input_object i) i s1 s2 P H) as [-> Q]. destruct (call_fun f own (input_object i) i s2) as [x|e]; [bad|]. specialize (Q _ eq_refl). bad.
Qed.

(** ** Tagged unions *)
Lemma find_call_sub repr py f2s md custom cs tag : Forall (fun c => sub (snd c)) cs -> sub (find_call_validator repr py f2s md custom cs tag).
Proof.
  intros F i s1 s2 H. unfold find_call_validator. destruct (lk_validate _ _ _ _ _) as [[id|]|]; try (destruct custom; bad). destruct (nth_error cs id) as [[t v]|] eqn:N; [|bad].
  apply nth_error_In in N. rewrite Forall_forall in F. specialize (F _ N). cbn in F. kid; try bad.
Qed.
Lemma tagged_sub repr ga py f2s md d fa custom cs : Forall (fun c => sub (snd c)) cs -> sub (tagged_union_validate repr ga py f2s md d fa custom cs).
Proof.
  intros F i s1 s2 H. unfold tagged_union_validate, tag_not_found. destruct d as [k|f].
  - cbv zeta. rewrite (fa_same _ _ _ H), (strict_on _ _ _ H). pose proof (mf_reads repr ga (unwrap_or (x_from_attributes (st_extra s2)) fa) i) as M.
    destruct (validate_model_fields repr ga true _ i) as [m|e]; [|bad]. destruct M as [G ->]. destruct (md_get m k) as [[[p t]|]|e] eqn:K; [now apply find_call_sub|destruct custom; bad|]. apply (proj1 G) in K. bad.
  - destruct (f (input_object i)) as [t|]; [|bad]. pose proof (find_call_sub repr py f2s md custom cs t F i s1 s2 H). destruct t; try assumption. destruct custom; bad.
Qed.

(** ** Classes *)
Definition plain1 {A} (f : option (A -> pyval + pyexc)) : Prop := forall g, f = Some g -> forall v e, g v = inr e -> ordinary e.
Lemma post_init_quiet f v i e : plain1 f -> call_post_init f v i = VErr e -> quiet e.
Proof. intros P. unfold call_post_init. destruct f as [f|]; [|discriminate]. destruct (f v) eqn:F; [discriminate|]. intros [= <-]. apply convert_quiet. exact (P f eq_refl _ _ F). Qed.
Lemma result_sub A (x : vres A) s1 s2 : (forall e, x = VErr e -> quiet e) -> R s1 s2 -> Sub never (x, s1) (x, s2).
Proof. intros Q H. destruct x as [a|e]; [bad|]. specialize (Q _ eq_refl). bad. Qed.
Lemma construct_sub c v i ex s1 s2 : sub v -> plain1 (mo_custom_init c) -> plain1 (mo_post_init c) -> R s1 s2 -> Sub never (model_construct c v i ex s1) (model_construct c v i ex s2).
Proof.
  intros V PC PP H. unfold model_construct.
  assert (K : Sub never (if mo_root c then match rebind (set_field_name (Some root_name)) s1 (v i) with (VErr e, s') => (VErr e, s') | (VOk out, s') => (call_post_init (mo_post_init c) (root_inst (mo_cls c) out (root_fields_set i)) i, s') end
      else match v i s1 with (VErr e, s') => (VErr e, s') | (VOk out, s') => (match build_model c ex out with VOk inst => call_post_init (mo_post_init c) inst i | VErr e => VErr e end, s') end)
    (if mo_root c then match rebind (set_field_name (Some root_name)) s2 (v i) with (VErr e, s') => (VErr e, s') | (VOk out, s') => (call_post_init (mo_post_init c) (root_inst (mo_cls c) out (root_fields_set i)) i, s') end
      else match v i s2 with (VErr e, s') => (VErr e, s') | (VOk out, s') => (match build_model c ex out with VOk inst => call_post_init (mo_post_init c) inst i | VErr e => VErr e end, s') end)).
  { destruct (mo_root c); kid; try bad; apply result_sub; try assumption; intros e.
    - now apply post_init_quiet.
    - destruct (build_model c ex v0) as [x|x] eqn:B; [now apply post_init_quiet|]. intros [= <-]. unfold build_model in B. repeat match goal with H : match ?x with _ => _ end = _ |- _ => destruct x; try discriminate end; injection B as <-; exact I. }
  destruct (mo_custom_init c) as [f|] eqn:CI; [|exact K]. destruct (as_kwargs i) as [kw|]; [|exact K]. destruct (f kw) as [x|x] eqn:F; [bad|]. apply SubBad; [|rs]. apply convert_quiet. exact (PC f eq_refl _ _ F).
Qed.
Lemma inst_attr_quiet v n e : inst_attr v n = VErr e -> quiet e.
Proof. unfold inst_attr. destruct v; try (intros [= <-]; exact I). destruct (assoc _ _); [discriminate|]. intros [= <-]; exact I. Qed.
Lemma model_data_quiet r v e : model_data r v = VErr e -> quiet e.
Proof.
  unfold model_data. destruct r; [apply inst_attr_quiet|]. destruct (inst_attr v dunder_dict) as [d|] eqn:D; [|intros [= <-]; exact (inst_attr_quiet _ _ _ D)].
  destruct (inst_attr v dunder_extra) as [x|] eqn:X; [|intros [= <-]; exact (inst_attr_quiet _ _ _ X)].
  destruct x; try discriminate; destruct (as_dict d); try (intros [= <-]; exact I); match goal with |- context [as_dict ?z] => destruct (as_dict z) end; try discriminate; intros [= <-]; exact I.
Qed.
Lemma model_sub sc c v : sub v -> plain1 (mo_custom_init c) -> plain1 (mo_post_init c) -> sub (model_validate sc c v).
Proof.
  intros V PC PP i s1 s2 H. unfold model_validate. destruct (instance_input _ _ _ i) as [[x f]|]; [|apply construct_sub; [assumption..|rs]].
  destruct (_ || f); [|bad]. destruct (inst_attr x _) as [fs|e] eqn:A; [|apply inst_attr_quiet in A; bad]. destruct (model_data _ x) as [d|e] eqn:D; [now apply construct_sub|apply model_data_quiet in D; bad].
Qed.
Lemma set_dict_quiet c out i e : (forall f, da_post_init c = Some f -> forall v l e, f v l = inr e -> ordinary e) -> set_dict_call c out i = VErr e -> quiet e.
Proof.
  intros P. unfold set_dict_call. destruct out as [| | | | | | |[|d [|kw [|]]]| | | | |]; try (intros [= <-]; exact I). destruct (as_dict d); [|intros [= <-]; exact I].
  destruct (da_post_init c) as [f|]; [|discriminate]. destruct kw; try (intros [= <-]; exact I); (destruct (f _ _) eqn:F; [discriminate|intros [= <-]; apply convert_quiet; exact (P f eq_refl _ _ _ F)]).
Qed.
Lemma inst_dict_quiet ns v : forall d e, inst_to_dict ns v d = VErr e -> quiet e.
Proof. induction ns as [|n ns IH]; intros d e; cbn; [discriminate|]. destruct (inst_attr v n) eqn:A; [apply IH|]. intros [= <-]. exact (inst_attr_quiet _ _ _ A). Qed.
Lemma dataclass_sub sc c v : sub v -> (forall f, da_post_init c = Some f -> forall v l e, f v l = inr e -> ordinary e) -> sub (dataclass_validate sc c v).
Proof.
  intros V P i s1 s2 H. unfold dataclass_validate. destruct (instance_input _ _ _ i) as [[x f]|].
  - destruct (_ || f); [|bad]. destruct (inst_to_dict _ x _) as [d|e] eqn:D; [|apply inst_dict_quiet in D; bad]. kid; try bad. apply result_sub; [|rs]. intros e. now apply set_dict_quiet.
  - rewrite (strict_on _ _ _ H). assert (E : x_input_type (st_extra s1) = x_input_type (st_extra s2)) by (apply ex_fields in H; cbv zeta in H; tauto). rewrite E. cbn [andb].
    destruct (x_input_type (st_extra s2)) eqn:T; [bad|..].
    all: rewrite andb_false_r; kid; try bad; apply result_sub; [|rs]; intros e; now apply set_dict_quiet.
Qed.
Lemma is_instance_sub sc cls : sub (is_instance_validate sc cls).
Proof. intros i s1 s2 H. unfold is_instance_validate. destruct i; try bad. destruct (is_instance _ _ _); bad. Qed.
