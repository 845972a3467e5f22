(** Properties of serialization: warnings (C58), JSON mode (C49), agreement of the two
    outputs (C48). *)
From Coq Require Import List NArith ZArith Bool Lia.
From Verif Require Import Base Float64 Utf8 Decimal Values BytesCodec Filter LookupKey Classes JsonText JsonTextSpec JsonTextProps.
From Verif Require Import SerBase Ser SerInd SerQuiet SerSpec SerPure SerAgree SerText SerWarn.
Import ListNotations.
Open Scope nat_scope.

(** ** C58: warnings *)

Lemma hush_final {A} (m m' : M A) : hush m m' ->
  (forall a, final_check WNone m' = Returned a [] <-> exists ws, final_check WWarn m = Returned a ws) /\
  (forall a ws, final_check WNone m' = Returned a ws -> ws = []) /\
  (forall a ws, final_check WWarn m = Returned a ws -> final_check WError m = if is_nil ws then Returned a [] else Raised) /\
  (final_check WWarn m = Raised -> final_check WError m = Raised).
Proof.
  intros [S W]. unfold final_check. rewrite S. destruct (snd m) as [b|e].
  - split; [|split; [|split]]; try congruence.
    + intros a. split; [intros [= <-]; eauto|intros [ws [= <- _]]; reflexivity].
    + now intros a ws [= <- <-].
  - split; [|split; [|split]]; try discriminate; try reflexivity. intros a. split; [discriminate|intros [ws [=]]].
Qed.

(** For every schema, value and set of options: with warnings='none' the call returns the
    value it returns with 'warn' and shows nothing; with 'error' it returns that value if no
    warning was recorded and raises otherwise. *)
Theorem C58_to_python E s c json o v :
  let call w := to_python E s c json (with_warnings w o) v in
  (forall a, call WNone = Returned a [] <-> exists ws, call WWarn = Returned a ws) /\
  (forall a ws, call WNone = Returned a ws -> ws = []) /\
  (forall a ws, call WWarn = Returned a ws -> call WError = if is_nil ws then Returned a [] else Raised) /\
  (call WWarn = Raised -> call WError = Raised).
Proof. cbv zeta. apply hush_final. apply (zp _ (quiet_build E _ (quiet_levels E ser_limit) s) v (o_include o) (o_exclude o) (start c json (with_warnings WWarn o))). Qed.
Print Assumptions C58_to_python.

Theorem C58_to_json E s c o v :
  let call w := to_json E s c (with_warnings w o) v in
  (forall a, call WNone = Returned a [] <-> exists ws, call WWarn = Returned a ws) /\
  (forall a ws, call WNone = Returned a ws -> ws = []) /\
  (forall a ws, call WWarn = Returned a ws -> call WError = if is_nil ws then Returned a [] else Raised) /\
  (call WWarn = Raised -> call WError = Raised).
Proof. cbv zeta. apply hush_final. apply (zj _ (quiet_build E _ (quiet_levels E ser_limit) s) v (o_include o) (o_exclude o) (start c true (with_warnings WWarn o))). Qed.
Print Assumptions C58_to_json.

(** A value that is not None and not an instance of the type its schema stands for is
    reported, hence refused with warnings='error'. *)
Lemma final_in {A} (m : M A) w a ws : In w (fst m) -> final_check WWarn m = Returned a ws -> In w ws.
Proof. intros H. unfold final_check. destruct (snd m); [|discriminate]. now intros [= _ <-]. Qed.
Lemma final_raise {A} (m : M A) w : In w (fst m) -> final_check WError m = Raised.
Proof. intros H. unfold final_check. destruct (snd m); [|reflexivity]. destruct (fst m); [contradiction|reflexivity]. Qed.
Theorem C58_unexpected E s c o v : unexpected s v = true -> v <> PNone ->
  (forall json a ws, to_python E s c json (with_warnings WWarn o) v = Returned a ws -> In (WFallback v) ws) /\
  (forall json, to_python E s c json (with_warnings WError o) v = Raised) /\
  (forall a ws, to_json E s c (with_warnings WWarn o) v = Returned a ws -> In (WFallback v) ws) /\
  to_json E s c (with_warnings WError o) v = Raised.
Proof.
  intros U N.
  assert (H : forall w json, x_collect (start c json (with_warnings w o)) = true ->
    In (WFallback v) (fst (z_py (build E (levels E ser_limit) s) v (o_include o) (o_exclude o) (start c json (with_warnings w o)))) /\
    In (WFallback v) (fst (z_js (build E (levels E ser_limit) s) v (o_include o) (o_exclude o) (start c json (with_warnings w o))))).
  { intros w json Hc. apply unexpected_loud; auto. }
  repeat split; intros.
  - eapply final_in; [|exact H0]. now apply H.
  - eapply final_raise with (w := WFallback v). now apply H.
  - eapply final_in; [|exact H0]. now apply H.
  - eapply final_raise with (w := WFallback v). now apply H.
Qed.
Print Assumptions C58_unexpected.

(** More items than the schema of a tuple has: reported. *)
Lemma bind_warned {A B} (m : M A) (k : A -> M B) w b : snd (bind m k) = Good b -> (forall a, snd (k a) = Good b -> In w (fst (k a))) -> In w (fst (bind m k)).
Proof. unfold bind. destruct m as [ws [a|e]]; cbn [fst snd]; [|discriminate]. intros H K. apply in_or_app. right. now apply K. Qed.
Lemma extra_items {A} L f ss (each : sz -> pyval -> incl -> incl -> M A) inc exc x l r : x_collect x = true -> length ss < length l ->
  snd (tuple_each L f ss None each inc exc x l) = Good r -> In WExtraItems (fst (tuple_each L f ss None each inc exc x l)).
Proof.
  intros X LT. unfold tuple_each. cbv zeta. destruct (is_strict _ && _); [discriminate|]. intros H. eapply bind_warned; [exact H|]. intros a.
  destruct (skipn (length ss) l) as [|v rest] eqn:SK; [apply (f_equal (@length _)) in SK; rewrite skipn_length in SK; cbn in SK; lia|].
  intros _. unfold bind, register. rewrite X. cbn. now left.
Qed.
Theorem C58_extra_items E f ss c o l s : s = SerTuple f ss None -> (length ss < length l)%nat ->
  (forall json a ws, to_python E s c json (with_warnings WWarn o) (PTuple l) = Returned a ws -> In WExtraItems ws) /\
  (forall json, to_python E s c json (with_warnings WError o) (PTuple l) = Raised) /\
  (forall a ws, to_json E s c (with_warnings WWarn o) (PTuple l) = Returned a ws -> In WExtraItems ws) /\
  to_json E s c (with_warnings WError o) (PTuple l) = Raised.
Proof.
  intros -> LT. set (s := SerTuple f ss None).
  assert (H : forall w json, x_collect (start c json (with_warnings w o)) = true ->
    (forall b, snd (z_py (build E (levels E ser_limit) s) (PTuple l) (o_include o) (o_exclude o) (start c json (with_warnings w o))) = Good b ->
       In WExtraItems (fst (z_py (build E (levels E ser_limit) s) (PTuple l) (o_include o) (o_exclude o) (start c json (with_warnings w o))))) /\
    (forall b, snd (z_js (build E (levels E ser_limit) s) (PTuple l) (o_include o) (o_exclude o) (start c json (with_warnings w o))) = Good b ->
       In WExtraItems (fst (z_js (build E (levels E ser_limit) s) (PTuple l) (o_include o) (o_exclude o) (start c json (with_warnings w o)))))).
  { intros w json Hc. unfold s. cbn [build tuple_ser simple z_py z_js]. unfold down_tuple. cbn [base].
    assert (B : forall A B (m : M A) (k : A -> B) b, (forall a, snd m = Good a -> In WExtraItems (fst m)) -> snd (r <- m ;; ret (k r)) = Good b -> In WExtraItems (fst (r <- m ;; ret (k r)))).
    { intros A B m k b K. unfold bind. destruct m as [ws [a|e]]; cbn [fst snd] in *; [|discriminate]. intros _. apply in_or_app. left. now apply (K a). }
    split; intros b; apply B; intros a; apply extra_items; try assumption; rewrite map_length; exact LT. }
  assert (R : forall A (m : M A), (forall b, snd m = Good b -> In WExtraItems (fst m)) -> final_check WError m = Raised).
  { intros A m K. unfold final_check. destruct (snd m) as [b|e]; [|reflexivity]. specialize (K b eq_refl). destruct (fst m); [contradiction|reflexivity]. }
  assert (W : forall A (m : M A) a ws, (forall b, snd m = Good b -> In WExtraItems (fst m)) -> final_check WWarn m = Returned a ws -> In WExtraItems ws).
  { intros A m a ws K. unfold final_check. destruct (snd m) as [b|e]; [|discriminate]. intros [= _ <-]. exact (K b eq_refl). }
  repeat split; intros.
  - eapply W; [|exact H0]. now apply (H WWarn json).
  - apply R. now apply (H WError json).
  - eapply W; [|exact H0]. now apply (H WWarn true).
  - apply R. now apply (H WError true).
Qed.
Print Assumptions C58_extra_items.

(** A value made as its schema says is never reported. *)
Theorem C58_expected E s c o v : fits s v = true ->
  (forall json a ws, to_python E s c json (with_warnings WWarn o) v = Returned a ws -> ws = []) /\
  (forall a ws, to_json E s c (with_warnings WWarn o) v = Returned a ws -> ws = []).
Proof.
  intros F. split; intros; unfold to_python, to_json, final_check in *; cbn [o_warnings with_warnings] in *.
  - destruct (silent_build E (levels E ser_limit) s v F (o_include o) (o_exclude o) (start c json (with_warnings WWarn o))) as [S _].
    cbn [o_include o_exclude with_warnings] in H. destruct (snd _) in H; [|discriminate]. rewrite S in H. now injection H.
  - destruct (silent_build E (levels E ser_limit) s v F (o_include o) (o_exclude o) (start c true (with_warnings WWarn o))) as [_ S].
    cbn [o_include o_exclude with_warnings] in H. destruct (snd _) in H; [|discriminate]. rewrite S in H. now injection H.
Qed.
Print Assumptions C58_expected.

(** *** Examples *)
Definition plain : class_info := {| ci_ser := None; ci_dataclass := None; ci_enum := false |}.
Definition conf : config := {| c_inf_nan := INull; c_bytes := MUtf8 |}.
Definition ex_ryu (f : f64) : bytes := lit "1.5".
Definition ex_env (cls : N -> class_info) (def : nat -> option ser) : env :=
  {| e_class := cls; e_sub := N.eqb; e_def := def; e_str := fun _ => None; e_hash := fun _ => true; e_prop := fun _ _ => None;
     e_ryu := ex_ryu; e_stack := 5 |}.
Definition E0 : env := ex_env (fun _ => plain) (fun _ => None).
Definition opts : options :=
  {| o_by_alias := None; o_exclude_unset := false; o_exclude_defaults := false; o_exclude_none := false; o_round_trip := false;
     o_warnings := WWarn; o_fallback := None; o_as_any := false; o_include := None; o_exclude := None |}.
Definition exf : f64 := S754_finite false 6755399441055744 (-52).

Example C58_ex_warn : to_python E0 (SerList any_filter SerInt) conf false opts (PList [PInt 1; PStr (lit "x"); PNone])
  = Returned (PList [PInt 1; PStr (lit "x"); PNone]) [WFallback (PStr (lit "x"))].
Proof. vm_compute. reflexivity. Qed.
Example C58_ex_error : to_python E0 (SerList any_filter SerInt) conf false (with_warnings WError opts) (PList [PInt 1; PStr (lit "x")]) = Raised.
Proof. vm_compute. reflexivity. Qed.
Example C58_ex_unexpected : unexpected (SerList any_filter SerInt) (PStr (lit "x")) = true /\ PStr (lit "x") <> PNone /\
  to_json E0 (SerList any_filter SerInt) conf opts (PStr (lit "x")) = Returned (JStr (lit "x")) [WFallback (PStr (lit "x"))].
Proof. split; [reflexivity|]. split; [discriminate|]. vm_compute. reflexivity. Qed.
Definition ex_schema : ser := SerDict any_filter SerInt (SerTuple any_filter [SerStr; SerNullable (SerBytes MHex)] None).
Definition ex_value : pyval := PDict [(PInt 3, PTuple [PStr (lit "x"); PBytes [255%N]]); (PInt (-4), PTuple [PStr []; PNone])].
Example C58_ex_extra_items : to_json E0 (SerTuple any_filter [SerInt] None) conf opts (PTuple [PInt 1; PStr (lit "x"); PNone]) = Returned (JArr [JInt 1; JStr (lit "x"); JNull]) [WExtraItems].
Proof. vm_compute. reflexivity. Qed.
Example C58_ex_expected : fits ex_schema ex_value = true /\
  to_python E0 ex_schema conf true opts ex_value
  = Returned (PDict [(PStr (lit "3"), PList [PStr (lit "x"); PStr (lit "ff")]); (PStr (lit "-4"), PList [PStr []; PNone])]) [].
Proof. vm_compute. split; reflexivity. Qed.

(** ** C49: JSON mode *)

Lemma final_good {A} w (m : M A) a ws : final_check w m = Returned a ws -> snd m = Good a.
Proof. unfold final_check. destruct (snd m); [|discriminate]. destruct w; try congruence. destruct (is_nil _); congruence. Qed.

(** With schemas for fixed sets of fields, to_python(mode='json') returns None, bool, int,
    float, str, list and dict objects only, the keys of the dicts being exact str. *)
Theorem C49_exact_keys E s c o v p ws :
  all_ser fixed_fields s = true -> env_all fixed_fields E ->
  to_python E s c true o v = Returned p ws -> jsonable is_str p.
Proof.
  intros H HE R. apply final_good in R. eapply (pure_top E is_str (fun m => match m with SimpleDict => true | _ => false end)); try exact R; try exact HE; auto; try discriminate.
  - intros t. now exists t.
Qed.
Print Assumptions C49_exact_keys.

(** Typed dicts with additional items keep the keys of these, which are strings but may be
    instances of a subclass of str. *)
Theorem C49_string_keys E s c o v p ws :
  all_ser no_model_extra s = true -> env_all no_model_extra E ->
  to_python E s c true o v = Returned p ws -> jsonable is_str_like p.
Proof.
  intros H HE R. apply final_good in R. eapply (pure_top E is_str_like (fun m => match m with ModelExtra => false | _ => true end)); try exact R; try exact HE; auto; try discriminate.
  - intros t. now exists t.
  - intros _ k t D. now exists t.
Qed.
Print Assumptions C49_string_keys.

Lemma all_ser_true s : all_ser (fun _ => true) s = true.
Proof.
  assert (A : forall l, Forall (fun s => all_ser (fun _ => true) s = true) l -> forallb (all_ser (fun _ => true)) l = true).
  { intros l F. apply forallb_forall. now apply Forall_forall. }
  induction s using ser_ind'; cbn [all_ser andb]; auto.
  - now rewrite IHs1, IHs2.
  - apply andb_true_intro; split; [apply andb_true_intro; split|].
    + apply forallb_forall. intros kf I. pose proof (proj1 (Forall_forall _ _) H _ I) as Q. cbn in Q. now destruct (f_ser (snd kf)).
    + now destruct ex.
    + apply forallb_forall. intros cf I. exact (proj1 (Forall_forall _ _) H1 _ I).
  - now destruct o.
  - now rewrite IHs1, IHs2.
  - rewrite IHs. now destruct fb.
Qed.

(** In general nothing is known of the keys, which a model's additional items keep; the
    values are of these types still. *)
Theorem C49_values E s c o v p ws : to_python E s c true o v = Returned p ws -> jsonable (fun _ => True) p.
Proof.
  intros R. apply final_good in R. eapply (pure_top E (fun _ => True) (fun _ => true)) with (q := fun _ => true); try exact R; auto.
  - split; intros; apply all_ser_true.
  - apply all_ser_true.
Qed.
Print Assumptions C49_values.

Example C49_ex : all_ser fixed_fields ex_schema = true /\ env_all fixed_fields E0 /\
  jsonable is_str (PDict [(PStr (lit "3"), PList [PStr (lit "x"); PStr (lit "ff")]); (PStr (lit "-4"), PList [PStr []; PNone])]).
Proof.
  assert (A : all_ser fixed_fields ex_schema = true) by reflexivity.
  assert (B : env_all fixed_fields E0) by (split; intros; discriminate).
  split; [exact A|]. split; [exact B|]. exact (C49_exact_keys _ _ conf opts _ _ _ A B (proj2 C58_ex_expected)).
Qed.

(** Findings: the key of an additional item of a typed dict stays an instance of a subclass
    of str, and that of an additional item of a model is anything. *)
Definition extra_model (extras : option ser) (comp : list (computed ser)) : ser := SerModel 1 (SerFields ModelExtra [] extras comp) true false.
Definition instance (d e : list (pyval * pyval)) : pyval := PObj 1 [(dunder_dict, PDict d); (dunder_extra, PDict e); (dunder_fields_set, PSet [])].
Theorem C49_str_subclass_key_refuted : exists s v p, all_ser no_model_extra s = true /\
  to_python E0 s conf true opts v = Returned p [] /\ ~ jsonable is_str p.
Proof.
  exists (SerFields TypedDictAllow [] None []), (PDict [(PSub 7 (PStr (lit "k")), PInt 1)]), (PDict [(PSub 7 (PStr (lit "k")), PInt 1)]).
  split; [reflexivity|]. split; [vm_compute; reflexivity|]. intros H. inversion H as [| | | | | |d D F]; subst. inversion F as [|? ? [[t K] _] _]; subst. discriminate K.
Qed.
Print Assumptions C49_str_subclass_key_refuted.
Theorem C49_extra_key_refuted : exists s v p, to_python E0 s conf true opts v = Returned p [] /\ ~ jsonable is_str_like p.
Proof.
  exists (extra_model None []), (instance [] [(PInt 3, PInt 4)]), (PDict [(PInt 3, PInt 4)]).
  split; [vm_compute; reflexivity|]. intros H. inversion H as [| | | | | |d D F]; subst. inversion F as [|? ? [[t K] _] _]; subst. discriminate K.
Qed.
Print Assumptions C49_extra_key_refuted.

(** ** C48: to_json and to_python(mode='json') *)

(** Both succeeding, on the schemas of [same_form] and without include and exclude: the JSON
    value says what the Python value says, and is equal to it when that has no NaN or
    infinity. *)
Theorem C48_agree E s c o v p j ws ws' :
  same_form (o_exclude_none o) (o_as_any o) false s = true -> same_form_env (o_exclude_none o) (o_as_any o) E ->
  o_include o = None -> o_exclude o = None ->
  to_python E s c true o v = Returned p ws -> to_json E s c o v = Returned j ws' ->
  renders j p /\ (finite_value p = true -> json_to_py j = p).
Proof.
  intros S SE I X P J. apply final_good in P, J. rewrite I, X in P, J.
  assert (R : renders j p).
  { apply (agree_top E (o_exclude_none o) (o_as_any o) SE ser_limit s v (start c true o) S); [|exact P|exact J].
    repeat split; try discriminate. cbn. intros ->. reflexivity. }
  split; [exact R|]. now apply (proj1 renders_exact).
Qed.
Print Assumptions C48_agree.

(** The bytes to_json returns are always a JSON text, which denotes the value written, when
    ser_json_inf_nan is not 'constants' and floats are written as JSON numbers. *)
Definition text_ok (s : ser) : bool := names_ok s && float_ok s.
Lemma textual_writable ryu reads j : (forall f, f_is_finite f = true -> float_text (ryu f) /\ reads (ryu f) = f) ->
  textual (fun f => f_is_finite f = true) j -> writable reads ryu j.
Proof.
  intros R. revert j. fix IH 2. intros j [| | |f F|s S|l F|l F]; try (constructor; fail); try (constructor; apply R; exact F); try (constructor; assumption).
  - constructor; try apply R; exact F.
  - constructor. induction F as [|a l H F IHF]; constructor; [apply IH; exact H|exact IHF].
  - constructor. induction F as [|a l [H1 H2] F IHF]; constructor; [split; [exact H1|apply IH; exact H2]|exact IHF].
Qed.
Theorem C48_json_text E s c o indent v out reads :
  all_ser text_ok s = true -> env_all text_ok E -> env_config no_constants E -> no_constants (c_inf_nan c) = true ->
  (forall f, f_is_finite f = true -> float_text (e_ryu E f) /\ reads (e_ryu E f) = f) ->
  to_json_bytes E s c o indent v = Some out ->
  exists text j ws, to_json E s c o v = Returned j ws /\ from_utf8 out = Some text /\ denotes reads text j.
Proof.
  intros A B C D R H. unfold to_json_bytes in H. destruct (to_json E s c o v) as [j ws|] eqn:J; [|discriminate].
  assert (T : textual (fun f => f_is_finite f = true) j).
  { apply final_good in J. apply (text_top E (fun f => f_is_finite f = true) no_constants) with (q := text_ok) (7 := A) (9 := J); auto.
    - intros m f M _ ->. discriminate M.
    - intros f. destruct f; cbn; (reflexivity || discriminate).
    - intros t M. apply andb_prop in M. apply M. }
  destruct (C52_parses (e_ryu E) reads indent j (textual_writable _ _ _ R T)) as (out' & text & E1 & E2 & E3).
  exists text, j, ws. split; [reflexivity|]. split; [|exact E3]. congruence.
Qed.
Print Assumptions C48_json_text.

(** The two together: the text to_json returns denotes the value that to_python returns. *)
Theorem C48_denotes E s c o indent v p ws out reads :
  same_form (o_exclude_none o) (o_as_any o) false s = true -> same_form_env (o_exclude_none o) (o_as_any o) E ->
  o_include o = None -> o_exclude o = None ->
  all_ser text_ok s = true -> env_all text_ok E -> env_config no_constants E -> no_constants (c_inf_nan c) = true ->
  (forall f, f_is_finite f = true -> float_text (e_ryu E f) /\ reads (e_ryu E f) = f) ->
  to_python E s c true o v = Returned p ws -> finite_value p = true ->
  to_json_bytes E s c o indent v = Some out ->
  exists text j, from_utf8 out = Some text /\ denotes reads text j /\ json_to_py j = p.
Proof.
  intros S SE I X A B C D R P F H. destruct (C48_json_text E s c o indent v out reads A B C D R H) as (text & j & ws' & J & U & T).
  exists text, j. split; [exact U|]. split; [exact T|]. exact (proj2 (C48_agree E s c o v p j ws ws' S SE I X P J) F).
Qed.
Print Assumptions C48_denotes.

(** *** Example: a model with an alias, a nested list of bytes, a computed field. *)
Definition fld (a : option str) (s : ser) : field ser := {| f_alias := a; f_ser := Some s; f_required := true; f_by_alias := Some true |}.
Definition cfld (n : str) (s : ser) : computed ser := {| cf_name := n; cf_alias := n; cf_ser := s; cf_by_alias := None |}.
Definition ex_model : ser :=
  SerModel 1 (SerFields SimpleDict [(lit "a", fld (Some (lit "A")) SerInt); (lit "b", fld None (SerList any_filter (SerBytes MBase64)))] None
    [cfld (lit "z") (SerFloat INull)]) false false.
Definition ex_class (n : N) : class_info :=
  if N.eqb n 1 then {| ci_ser := Some (ex_model, conf); ci_dataclass := None; ci_enum := false |} else plain.
Definition E1 : env :=
  {| e_class := ex_class; e_sub := N.eqb; e_def := fun _ => None; e_str := fun _ => None; e_hash := fun _ => true;
     e_prop := fun v n => match v with PObj 1 _ => if str_eqb n (lit "z") then Some (PFloat exf) else None | _ => None end;
     e_ryu := ex_ryu; e_stack := 5 |}.
Definition ex_instance : pyval := PObj 1 [(dunder_dict, PDict [(PStr (lit "a"), PInt 5); (PStr (lit "b"), PList [PBytes [1%N; 2%N]])]);
  (dunder_fields_set, PSet [PStr (lit "a")])].
Example C48_ex : same_form false false false ex_model = true /\ same_form_env false false E1 /\
  all_ser text_ok ex_model = true /\ env_all text_ok E1 /\ env_config no_constants E1 /\
  to_python E1 ex_model conf true opts ex_instance
    = Returned (PDict [(PStr (lit "A"), PInt 5); (PStr (lit "b"), PList [PStr (lit "AQI=")]); (PStr (lit "z"), PFloat exf)]) [] /\
  to_json_bytes E1 ex_model conf opts None ex_instance
    = Some (lit "{" ++ [34%N] ++ lit "A" ++ [34%N] ++ lit ":5," ++ [34%N] ++ lit "b" ++ [34%N] ++ lit ":[" ++ [34%N] ++ lit "AQI=" ++ [34%N]
            ++ lit "]," ++ [34%N] ++ lit "z" ++ [34%N] ++ lit ":1.5}").
Proof.
  assert (Q : forall c sc, ci_ser (e_class E1 c) = Some sc -> sc = (ex_model, conf)).
  { intros c sc. cbn. unfold ex_class. destruct (N.eqb c 1); [now intros [= <-]|discriminate]. }
  split; [reflexivity|]. split; [split; [|discriminate]; intros c sc H; apply Q in H; subst; reflexivity|]. split; [reflexivity|].
  split; [split; [|discriminate]; intros c sc H; apply Q in H; subst; reflexivity|].
  split; [intros c s g H; apply Q in H; now injection H as -> ->|]. split; vm_compute; reflexivity.
Qed.

(** *** Findings: where the two outputs differ *)
Definition with_exclude (f : fval) (o : options) : options :=
  {| o_by_alias := o_by_alias o; o_exclude_unset := o_exclude_unset o; o_exclude_defaults := o_exclude_defaults o;
     o_exclude_none := o_exclude_none o; o_round_trip := o_round_trip o; o_warnings := o_warnings o; o_fallback := o_fallback o;
     o_as_any := o_as_any o; o_include := o_include o; o_exclude := Some f |}.
Definition excluding_none (o : options) : options :=
  {| o_by_alias := o_by_alias o; o_exclude_unset := o_exclude_unset o; o_exclude_defaults := o_exclude_defaults o;
     o_exclude_none := true; o_round_trip := o_round_trip o; o_warnings := o_warnings o; o_fallback := o_fallback o;
     o_as_any := o_as_any o; o_include := o_include o; o_exclude := o_exclude o |}.

(** A float schema: NaN stays NaN in Python and is null in JSON (ser_json_inf_nan='null', the
    default); an inferred NaN is None in both. *)
Theorem C48_nan_refuted : exists v,
  to_python E0 (SerFloat INull) conf true opts v = Returned v [] /\ v <> PNone /\ to_json E0 (SerFloat INull) conf opts v = Returned JNull [] /\
  to_python E0 SerAny conf true opts v = Returned PNone [] /\ to_json E0 SerAny conf opts v = Returned JNull [].
Proof. exists (PFloat S754_nan). repeat split; try discriminate; vm_compute; reflexivity. Qed.
Print Assumptions C48_nan_refuted.
(** The elements of an inferred set are filtered by include and exclude in JSON only. *)
Theorem C48_set_filter_refuted : exists v o p j,
  to_python E0 SerAny conf true o v = Returned p [] /\ to_json E0 SerAny conf o v = Returned j [] /\ json_to_py j <> p.
Proof.
  exists (PSet [PTuple [PInt 1; PInt 2]]), (with_exclude (FSet [KInt 0]) opts), (PList [PList [PInt 1; PInt 2]]), (JArr [JArr [JInt 2]]).
  split; [vm_compute; reflexivity|]. split; [vm_compute; reflexivity|discriminate].
Qed.
Print Assumptions C48_set_filter_refuted.
(** The serializer of additional items (extras_schema) is not used in JSON. *)
Theorem C48_extras_schema_refuted : exists s v p j,
  to_python E0 s conf true opts v = Returned p [] /\ to_json E0 s conf opts v = Returned j [] /\ json_to_py j <> p.
Proof.
  exists (extra_model (Some (SerToString Always)) []), (instance [] [(PStr (lit "k"), PInt 4)]), (PDict [(PStr (lit "k"), PStr (lit "4"))]), (JObj [(lit "k", JInt 4)]).
  split; [vm_compute; reflexivity|]. split; [vm_compute; reflexivity|discriminate].
Qed.
Print Assumptions C48_extras_schema_refuted.
(** exclude_none of a computed field tests the serialized value in Python and the value itself in JSON. *)
Definition E2 : env := {| e_class := fun _ => plain; e_sub := N.eqb; e_def := fun _ => None; e_str := fun _ => None; e_hash := fun _ => true;
  e_prop := fun _ n => if str_eqb n (lit "z") then Some PNone else None; e_ryu := ex_ryu; e_stack := 5 |}.
Theorem C48_computed_none_refuted : exists s v p j,
  to_python E2 s conf true (excluding_none opts) v = Returned p [] /\ to_json E2 s conf (excluding_none opts) v = Returned j [] /\ json_to_py j <> p.
Proof.
  exists (extra_model None [cfld (lit "z") (SerToString Always)]), (instance [] []), (PDict [(PStr (lit "z"), PStr (lit "None"))]), (JObj []).
  split; [vm_compute; reflexivity|]. split; [vm_compute; reflexivity|discriminate].
Qed.
Print Assumptions C48_computed_none_refuted.
(** mode='json' does not select the JSON branch of a json-or-python schema. *)
Theorem C48_json_or_python_refuted : exists s v p j,
  to_python E0 s conf true opts v = Returned p [] /\ to_json E0 s conf opts v = Returned j [] /\ json_to_py j <> p.
Proof.
  exists (SerJsonOrPython (SerToString Always) SerInt), (PInt 1), (PInt 1), (JStr (lit "1")). split; [vm_compute; reflexivity|]. split; [vm_compute; reflexivity|discriminate].
Qed.
Print Assumptions C48_json_or_python_refuted.
(** An int beyond the range of a double in a float field: an exception in Python, the int with a warning in JSON. *)
Theorem C48_large_int_refuted : exists z, to_python E0 (SerFloat INull) conf true opts (PInt z) = Raised /\
  to_json E0 (SerFloat INull) conf opts (PInt z) = Returned (JInt z) [WFallback (PInt z)].
Proof. exists (2 ^ 1024)%Z. split; vm_compute; reflexivity. Qed.
Print Assumptions C48_large_int_refuted.
(** A typed dict whose key is not a string, the value being None: under exclude_none an
    exception in Python, nothing in JSON. *)
Theorem C48_none_key_refuted : exists v, to_python E0 (SerFields SimpleDict [] None []) conf true (excluding_none opts) v = Raised /\
  to_json E0 (SerFields SimpleDict [] None []) conf (excluding_none opts) v = Returned (JObj []) [].
Proof. exists (PDict [(PInt 1, PNone)]). split; vm_compute; reflexivity. Qed.
Print Assumptions C48_none_key_refuted.
(** A lone surrogate: returned by to_python, refused by to_json. *)
Theorem C48_surrogate_refuted : exists v, to_python E0 SerStr conf true opts v = Returned v [] /\ to_json E0 SerStr conf opts v = Raised.
Proof. exists (PStr [55296%N]). split; vm_compute; reflexivity. Qed.
Print Assumptions C48_surrogate_refuted.
(** A computed field of a dataclass whose schema is a field serializer: the function gets the
    instance in Python; in JSON there is none and the call fails. *)
Definition E3 : env := {| e_class := fun n => if N.eqb n 1 then {| ci_ser := None; ci_dataclass := Some []; ci_enum := false |} else plain;
  e_sub := N.eqb; e_def := fun _ => None; e_str := fun _ => None; e_hash := fun _ => true;
  e_prop := fun _ n => if str_eqb n (lit "z") then Some (PInt 2) else None; e_ryu := ex_ryu; e_stack := 5 |}.
Theorem C48_dataclass_computed_refuted : exists s v p, to_python E3 s conf true opts v = Returned p [] /\ to_json E3 s conf opts v = Raised.
Proof.
  exists (SerDataclass 1 (SerFields SimpleDict [] None [cfld (lit "z") (SerFunction Always true (fun _ v => inl v) SerInt None)]) []),
    (PObj 1 []), (PDict [(PStr (lit "z"), PInt 2)]).
  split; vm_compute; reflexivity.
Qed.
Print Assumptions C48_dataclass_computed_refuted.
