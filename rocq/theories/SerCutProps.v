(** C94: the options that leave things out only leave things out. *)
From Coq Require Import List NArith ZArith Bool.
From Verif Require Import Base Float64 Utf8 Decimal Values BytesCodec Filter FilterSpec FilterProofs LookupKey Classes JsonText SerBase Ser SerSpec SerCutSpec SerCutProofs.
Import ListNotations.
From Verif Require Assign.
Open Scope nat_scope.

Lemma start_clear c o : start c true (in_full o) = clear (start c true o).
Proof. reflexivity. Qed.
Lemma picked_of_nil {A} (R : A -> A -> Prop) l : picked R l [] -> l = [].
Proof. intros H. inversion H. reflexivity. Qed.

Lemma only_removes E s c o v quiet careful j W :
  env_all (cuttable (o_round_trip o) careful) E -> all_ser (cuttable (o_round_trip o) careful) s = true -> wf_top (o_include o) -> wf_top (o_exclude o) ->
  (quiet = true -> o_warnings o <> WNone /\ W = []) -> (careful = false -> o_exclude_unset o = true -> quiet = true) ->
  to_json E s c (in_full o) v = Returned j W ->
  (exists j' W', to_json E s c o v = Returned j' W' /\ part j' j /\ picked eq W' W) \/ (o_exclude_unset o = true /\ to_json E s c o v = Raised).
Proof.
  intros QE QS WI WE HQ HC H. unfold to_json in *. cbn [in_full o_warnings o_include o_exclude] in H. rewrite start_clear in H.
  pose proof (cut_top (o_exclude_unset o) quiet E (o_round_trip o) careful QE ser_limit s QS v (o_include o) (o_exclude o) (start c true o)) as T.
  set (m' := z_js _ v (o_include o) (o_exclude o) (start c true o)) in *. set (m := z_js _ v None None (clear (start c true o))) in *.
  assert (FT : fit (o_exclude_unset o) quiet (o_round_trip o) careful (start c true o)).
  { split; [intros q; destruct (HQ q) as [N _]; cbn [x_collect start]; destruct (o_warnings o); congruence|]. split; [exact (fun q => q)|]. split; [exact (fun q => q)|exact HC]. }
  specialize (T FT (wf_fine_top _ WI) (wf_fine_top _ WE)). unfold RR in T. unfold final_check in H |- *.
  destruct (snd m) as [b|] eqn:S; [|discriminate H]. specialize (T b eq_refl).
  assert (N : quiet = true -> fst m = []).
  { intros q. destruct (HQ q) as [NW WW]. destruct (o_warnings o); [congruence| |].
    - injection H as _ <-. exact WW.
    - destruct (fst m) eqn:FM; [reflexivity|discriminate H]. }
  destruct (T N) as [P R]. destruct (snd m') as [a|]; [|right; split; [exact R|reflexivity]]. left. destruct (o_warnings o).
  - injection H as <- <-. exists a, []. split; [reflexivity|split; [exact R|constructor]].
  - injection H as <- <-. exists a, (fst m'). split; [reflexivity|split; [exact R|exact P]].
  - destruct (fst m) as [|w W0]; [|discriminate H]. apply picked_of_nil in P. rewrite P. injection H as <- <-. exists a, []. split; [reflexivity|split; [exact R|constructor]].
Qed.

(** include, exclude, exclude_none, exclude_defaults and round_trip never make a call fail or
    warn that returns without them, and what is written is what is written without them
    with some items and members left out. *)
Theorem C94_only_removes E s c o v j W :
  env_all (cuttable (o_round_trip o) false) E -> all_ser (cuttable (o_round_trip o) false) s = true -> wf_top (o_include o) -> wf_top (o_exclude o) ->
  o_exclude_unset o = false -> to_json E s c (in_full o) v = Returned j W ->
  exists j' W', to_json E s c o v = Returned j' W' /\ part j' j /\ picked eq W' W.
Proof.
  intros QE QS WI WE U H. destruct (only_removes E s c o v false false j W QE QS WI WE) as [R|[R _]]; try discriminate; try assumption.
  - intros _ X. congruence.
  - congruence.
Qed.
(** With exclude_unset as well, for models that keep no additional fields, except that an
    instance without a set of fields set cannot be written. *)
Theorem C94_only_removes_unset E s c o v j W :
  env_all (cuttable (o_round_trip o) true) E -> all_ser (cuttable (o_round_trip o) true) s = true -> wf_top (o_include o) -> wf_top (o_exclude o) ->
  to_json E s c (in_full o) v = Returned j W ->
  (exists j' W', to_json E s c o v = Returned j' W' /\ part j' j /\ picked eq W' W) \/ (o_exclude_unset o = true /\ to_json E s c o v = Raised).
Proof. intros QE QS WI WE H. apply (only_removes E s c o v false true j W); try assumption; discriminate. Qed.
(** For all models, if the call without the options shows no warning although it would. *)
Theorem C94_only_removes_quietly E s c o v j :
  env_all (cuttable (o_round_trip o) false) E -> all_ser (cuttable (o_round_trip o) false) s = true -> wf_top (o_include o) -> wf_top (o_exclude o) ->
  o_warnings o <> WNone -> to_json E s c (in_full o) v = Returned j [] ->
  (exists j', to_json E s c o v = Returned j' [] /\ part j' j) \/ (o_exclude_unset o = true /\ to_json E s c o v = Raised).
Proof.
  intros QE QS WI WE N H. destruct (only_removes E s c o v true false j [] QE QS WI WE) as [(j' & W' & A & B & C)|R]; auto.
  apply picked_of_nil in C. subst W'. left. eauto.
Qed.
Print Assumptions C94_only_removes.
Print Assumptions C94_only_removes_unset.
Print Assumptions C94_only_removes_quietly.

(** What [part] leaves alone: a scalar, and the keys of objects. *)
Theorem C94_scalars_kept j' j : part j' j -> match j with JArr _ | JObj _ => True | _ => j' = j end.
Proof. intros H. destruct H; auto; destruct j; auto. Qed.
Theorem C94_members_kept d' d : part (JObj d') (JObj d) -> picked eq (map fst d') (map fst d).
Proof.
  intros H. inversion H as [|l' l X|e' e X]; subst; [apply picked_refl; reflexivity|]. clear H.
  induction X as [|a b l' l [Y _] _ IH|b l' l _ IH]; cbn [map]; [constructor| |]; constructor; assumption.
Qed.
Print Assumptions C94_scalars_kept.
Print Assumptions C94_members_kept.

(** ** Examples. *)
Definition cut_env : env :=
  {| e_class := fun _ => {| ci_ser := None; ci_dataclass := None; ci_enum := false |}; e_sub := N.eqb; e_def := fun _ => None;
     e_str := fun _ => None; e_hash := fun _ => true; e_prop := fun _ _ => None; e_ryu := fun _ => []; e_stack := 5 |}.
Definition cut_conf : config := {| c_inf_nan := INull; c_bytes := MUtf8 |}.
Definition cut_opts (unset defaults none rt : bool) (inc exc : option fval) : options :=
  {| o_by_alias := None; o_exclude_unset := unset; o_exclude_defaults := defaults; o_exclude_none := none; o_round_trip := rt; o_warnings := WWarn;
     o_fallback := None; o_as_any := false; o_include := inc; o_exclude := exc |}.
Definition cut_field (s : ser) : field ser := {| f_alias := None; f_ser := Some s; f_required := true; f_by_alias := None |}.
(** A model with a number (default 5), a list of dicts and something. *)
Definition cut_model : ser :=
  SerModel 1 (SerFields SimpleDict [(lit "n", cut_field (SerDefault (Some (PInt 5)) SerInt)); (lit "l", cut_field (SerList any_filter (SerDict any_filter SerStr SerAny)));
    (lit "o", cut_field SerAny)] None []) false false.
Definition cut_row (n : Z) : pyval := PDict [(PStr (lit "a"), PInt n); (PStr (lit "b"), PStr (lit "x"))].
Definition cut_value (set : list str) : pyval :=
  PObj 1 [(dunder_dict, PDict [(PStr (lit "n"), PInt 5); (PStr (lit "l"), PList [cut_row 1; cut_row 2; cut_row 3]); (PStr (lit "o"), PNone)]);
    (dunder_fields_set, PSet (map PStr set))].
Definition cut_filter : fval := FDict [(KStr (lit "l"), FDict [(KInt 0, FEll); (KInt (-1), FSet [KStr (lit "a")])])].
Lemma cut_env_ok q : env_all q cut_env.
Proof. split; [intros c sc [=]|intros k s [=]]. Qed.
Example C94_example :
  all_ser (cuttable false true) cut_model = true /\ wf_top (Some cut_filter) /\
  to_json cut_env cut_model cut_conf (in_full (cut_opts true true true false None (Some cut_filter))) (cut_value [lit "l"; lit "o"]) =
    Returned (JObj [(lit "n", JInt 5);
      (lit "l", JArr (map (fun n => JObj [(lit "a", JInt n); (lit "b", JStr (lit "x"))]) [1; 2; 3]%Z)); (lit "o", JNull)]) [] /\
  to_json cut_env cut_model cut_conf (cut_opts false true true false None (Some cut_filter)) (cut_value [lit "l"; lit "o"]) =
    Returned (JObj [(lit "l", JArr [JObj [(lit "a", JInt 2); (lit "b", JStr (lit "x"))]; JObj [(lit "b", JStr (lit "x"))]])]) [] /\
  to_json cut_env cut_model cut_conf (cut_opts true false false false None None) (cut_value [lit "o"]) = Returned (JObj [(lit "o", JNull)]) [].
Proof.
  split; [reflexivity|]. split; [|split; [|split]; vm_compute; reflexivity]. split; [|discriminate]. unfold cut_filter. apply wf_dict.
  split; [constructor; [intros []|constructor]|]. constructor; [|constructor]. apply wf_dict.
  split; [constructor; [intros [[=]|[]]|constructor; [intros []|constructor]]|]. constructor; [exact I|]. constructor; [|constructor].
  cbn. constructor; [intros []|constructor].
Qed.

(** An instance without a set of fields set can be written, but not with exclude_unset. *)
Theorem C94_unset_fails_refuted : exists E s c o v j,
  all_ser (cuttable (o_round_trip o) true) s = true /\ to_json E s c (in_full o) v = Returned j [] /\ to_json E s c o v = Raised.
Proof.
  exists cut_env, cut_model, cut_conf, (cut_opts true false false false None None), (PObj 1 [(dunder_dict, PDict [(PStr (lit "n"), PInt 5)])]), (JObj [(lit "n", JInt 5)]).
  vm_compute. auto.
Qed.
(** The restrictions are needed.  An item that the schema excludes comes back when the call
    excludes a part of it. *)
Theorem C94_schema_filter_refuted : exists E s c o v j',
  wf_top (o_exclude o) /\ o_include o = None /\ to_json E s c (in_full o) v = Returned (JArr []) [] /\ to_json E s c o v = Returned j' [] /\ ~ part j' (JArr []).
Proof.
  exists cut_env, (SerList {| sf_include := None; sf_exclude := Some [KInt 0] |} SerAny), cut_conf,
    (cut_opts false false false false None (Some (FDict [(KInt 0, FSet [KStr (lit "a")])]))), (PList [cut_row 1]), (JArr [JObj [(lit "b", JStr (lit "x"))]]).
  split; [split; [|discriminate]; apply wf_dict; split; [constructor; [intros []|constructor]|constructor; [cbn; constructor; [intros []|constructor]|constructor]]|].
  split; [reflexivity|]. split; [vm_compute; reflexivity|]. split; [vm_compute; reflexivity|]. intros H. inversion H as [|l' l X|]; subst. inversion X.
Qed.
(** A union can choose another serializer once the item that did not fit is excluded. *)
Theorem C94_union_refuted : exists E s c o v j j',
  wf_top (o_exclude o) /\ o_include o = None /\ to_json E s c (in_full o) v = Returned j [] /\ to_json E s c o v = Returned j' [] /\ ~ part j' j.
Proof.
  exists cut_env, (SerUnion [SerList any_filter (SerBytes MHex); SerList any_filter SerAny]), cut_conf,
    (cut_opts false false false false None (Some (FSet [KInt 1]))), (PList [PBytes (lit "a"); PStr (lit "x")]), (JArr [JStr (lit "a"); JStr (lit "x")]), (JArr [JStr (lit "61")]).
  split; [split; [cbn; constructor; [intros []|constructor]|discriminate]|].
  split; [reflexivity|]. split; [vm_compute; reflexivity|]. split; [vm_compute; reflexivity|]. intros H. inversion H as [|l' l X|]; subst.
  inversion X as [|a b l' l Y _|b l' l X2]; subst; [inversion Y|]. inversion X2 as [|a b l' l Y _|b l' l X3]; subst; [inversion Y|]. inversion X3.
Qed.
(** round_trip writes JSON text where there was a value. *)
Theorem C94_round_trip_refuted : exists E s c o v j j',
  o_exclude o = None /\ o_include o = None /\ to_json E s c (in_full o) v = Returned j [] /\ to_json E s c o v = Returned j' [] /\ ~ part j' j.
Proof.
  exists cut_env, (SerJson SerAny), cut_conf, (cut_opts false false false true None None), (PList [PInt 1]), (JArr [JInt 1]), (JStr (lit "[1]")).
  split; [reflexivity|]. split; [reflexivity|]. split; [vm_compute; reflexivity|]. split; [vm_compute; reflexivity|]. intros H. inversion H.
Qed.
(** A filter that is neither a set nor a dict makes the call fail. *)
Theorem C94_bad_filter_refuted : exists E s c o v j,
  o_include o = None /\ all_ser (cuttable (o_round_trip o) true) s = true /\ to_json E s c (in_full o) v = Returned j [] /\ to_json E s c o v = Raised.
Proof.
  exists cut_env, cut_model, cut_conf, (cut_opts false false false false None (Some FOther)), (PObj 1 [(dunder_dict, PDict [(PStr (lit "n"), PInt 5)])]), (JObj [(lit "n", JInt 5)]).
  vm_compute. auto.
Qed.
(** And leaving out is not always done: below a function serializer that is not used for a
    value, what the call excludes is written all the same. *)
Theorem C94_function_ignores_exclude_refuted : exists E s c o v,
  o_exclude o = Some (FSet [KStr (lit "a")]) /\
  to_python E SerAny c false o v = Returned (PDict [(PStr (lit "b"), PStr (lit "x"))]) [] /\
  to_python E (SerFunction WhenJson false s SerAny (Some SerAny)) c false o v = Returned v [].
Proof.
  exists cut_env, (fun _ v => inl v), cut_conf, (cut_opts false false false false None (Some (FSet [KStr (lit "a")]))), (cut_row 1).
  split; [reflexivity|]. split; vm_compute; reflexivity.
Qed.
Print Assumptions C94_unset_fails_refuted.
Print Assumptions C94_schema_filter_refuted.
Print Assumptions C94_union_refuted.
Print Assumptions C94_round_trip_refuted.
Print Assumptions C94_bad_filter_refuted.
Print Assumptions C94_function_ignores_exclude_refuted.
