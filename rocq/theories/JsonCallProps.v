(** C76, C77, C78: the schemas json, call, callable and is-subclass. *)
From Coq Require Floats.SpecFloat.
From Coq Require Import List NArith ZArith Bool Lia.
From Verif Require Import Base Utf8 BytesCodec Values VState LookupKey Collections Child Inputs Scalars Wrappers Interp Union JsonCall JsonCallSpec.
From Verif Require JsonText JsonTextSpec JsonTextProps SerBase Ser.
Import ListNotations.
Open Scope nat_scope.

Lemma bytes_run : forall i, match document i with
  | Some (b, x) => exists v, validate_json_bytes i = VOk (v, x) /\ bytes_value v = b
  | None => validate_json_bytes i = val_err EJsonType i
  end.
Proof.
  intros [v|j|t|v]; cbn [document]; unfold validate_json_bytes; cbn [validate_bytes].
  - destruct v as [|b|z|f|t|b|l|l|l|l|l|cls a|cls w]; try reflexivity; cbn [strip]; try (eexists; split; reflexivity).
    destruct (strip w) eqn:E; try reflexivity; (eexists; split; [reflexivity|]); unfold bytes_value; cbn [strip]; rewrite ?E; reflexivity.
  - destruct j; try reflexivity. eexists; split; reflexivity.
  - eexists; split; reflexivity.
  - destruct (as_str v); [eexists; split; reflexivity|reflexivity].
Qed.

Section C76.
Variable parse : bytes -> partial_mode -> json + N.
Variable python_parse : bytes -> partial_mode -> pyval + N.
Notation json_validate := (json_validate parse python_parse).
Notation json_build := (json_build parse python_parse).
Notation call_json := (call_json parse).

(** C76: validating Python data with the schema json(S) is validate_json with S, whatever S
    is, errors included. *)
Theorem C76_validate_json : forall run sc o obj,
  (forall b m, python_parse b m = match parse b m with inl j => inl (json_to_py j) | inr n => inr n end) ->
  (forall i s, run SAny i s = any_validate i s) ->
  call_python (json_build (Some sc) run) o obj = call_json (run sc) o obj.
Proof.
  intros run sc o obj Hp Ha. unfold call_python, JsonCall.call_json, JsonCall.json_build.
  assert (G : forall inner, fst (json_validate (Some inner) (IPy obj) (call_state ITPython o)) = call_json inner o obj).
  { intros inner. unfold JsonCall.json_validate, JsonCall.call_json. destruct (validate_json_bytes (IPy obj)) as [[v x]|e]; [|reflexivity].
    cbn [floor_exactness call_state st_exactness st_partial]. destruct (parse (bytes_value v) (op_partial o)) as [j|n]; [|reflexivity].
    unfold rebind. change (set_extra (set_input_type ITJson _) _) with (call_state ITJson o). destruct (inner (IJson j) (call_state ITJson o)). reflexivity. }
  destruct sc; try apply G. clear G. unfold JsonCall.json_validate. destruct (validate_json_bytes (IPy obj)) as [[v x]|e]; [|reflexivity].
  cbn [floor_exactness call_state st_exactness st_partial]. rewrite Hp. destruct (parse (bytes_value v) (op_partial o)) as [j|n]; [|reflexivity].
  rewrite Ha. reflexivity.
Qed.

(** C76: inputs that hold a document (strictness does not matter) are validated as that
    document, in JSON mode and with all other settings unchanged; any other input is a
    json_type error, and a malformed document a json_invalid error. *)
Theorem C76_document : forall inner i s b x, document i = Some (b, x) ->
  json_validate (Some inner) i s =
  match parse b (st_partial s) with
  | inl j => let '(r, s') := inner (IJson j) (set_extra (set_input_type ITJson (st_extra s)) (floor_exactness x s)) in (r, set_extra (st_extra s) s')
  | inr n => (val_err (EJsonInvalid n) i, floor_exactness x s)
  end.
Proof.
  intros inner i s b x H. pose proof (bytes_run i) as B. rewrite H in B. destruct B as (v & E & <-). unfold JsonCall.json_validate. rewrite E.
  assert (P : st_partial (floor_exactness x s) = st_partial s /\ st_extra (floor_exactness x s) = st_extra s).
  { unfold floor_exactness. destruct (st_exactness s) as [[]|]; [split; reflexivity|destruct x; split; reflexivity|split; reflexivity|split; reflexivity]. }
  destruct P as [-> Q]. destruct (parse _ _); [|reflexivity]. unfold rebind. rewrite Q. reflexivity.
Qed.
Theorem C76_not_json : forall inner i s, document i = None -> json_validate inner i s = (val_err EJsonType i, s).
Proof. intros inner i s H. pose proof (bytes_run i) as B. rewrite H in B. unfold JsonCall.json_validate. rewrite B. reflexivity. Qed.
(** C76: without a schema, or with any, the parsed document is returned. *)
Theorem C76_plain : forall run i s b x, document i = Some (b, x) ->
  json_build None run i s = json_build (Some SAny) run i s
  /\ fst (json_build None run i s) = match python_parse b (st_partial s) with inl v => VOk v | inr n => val_err (EJsonInvalid n) i end.
Proof.
  intros run i s b x H. split; [reflexivity|]. pose proof (bytes_run i) as B. rewrite H in B. destruct B as (v & E & <-).
  unfold JsonCall.json_build, JsonCall.json_validate. rewrite E.
  assert (P : st_partial (floor_exactness x s) = st_partial s).
  { unfold floor_exactness. destruct (st_exactness s) as [[]|]; [reflexivity|destruct x; reflexivity|reflexivity|reflexivity]. }
  rewrite P. destruct (python_parse _ _); reflexivity.
Qed.

(** C76: a document within a document: the same as validating the inner document. *)
Theorem C76_nested : forall inner o obj b x t, document (IPy obj) = Some (b, x) -> parse b (op_partial o) = inl (JStr t) ->
  shown (call_json (json_validate (Some inner)) o obj) = shown (call_json inner o (PStr t)).
Proof.
  intros inner o obj b x t H Hp. pose proof (bytes_run (IPy obj)) as B. rewrite H in B. destruct B as (v & E & <-).
  unfold JsonCall.call_json at 1. rewrite E, Hp. rewrite (C76_document inner (IJson (JStr t)) _ (utf8 t) Strict eq_refl).
  unfold JsonCall.call_json. pose proof (bytes_run (IPy (PStr t))) as B. cbn [document strip] in B. destruct B as (w & Ew & Hw). rewrite Ew, Hw.
  cbn [call_state st_partial]. destruct (parse (utf8 t) (op_partial o)) as [j|n]; [|reflexivity].
  change (set_extra (set_input_type ITJson _) _) with (call_state ITJson o). destruct (inner (IJson j) (call_state ITJson o)). reflexivity.
Qed.
End C76.
Print Assumptions C76_validate_json.
Print Assumptions C76_document.
Print Assumptions C76_not_json.
Print Assumptions C76_plain.
Print Assumptions C76_nested.


(** C76: with round_trip, the serializer of json(S) writes, in JSON mode, a string which
    json(S) validates as the JSON that the serializer of S wrote. *)
Theorem C76_round_trip : forall E reads parse python_parse s c o v j w,
  Ser.o_round_trip o = true -> Ser.to_json E s c o v = Ser.Returned j w -> JsonTextSpec.writable reads (SerBase.e_ryu E) j ->
  reads_json (JsonTextProps.denotes reads) parse j ->
  exists t, Ser.to_json E (SerBase.SerJson s) c o v = Ser.Returned (JStr t) w
    /\ Ser.to_python E (SerBase.SerJson s) c true o v = Ser.Returned (PStr t) w
    /\ forall inner opts obj, input_object (IJson (JStr t)) = obj ->
       call_python (json_validate parse python_parse (Some inner)) opts obj = fst (inner (IJson j) (call_state ITJson opts)).
Proof.
  intros E reads parse python_parse s c o v j w Hr Hj Hw Hp.
  destruct (JsonTextProps.C52_parses (SerBase.e_ryu E) reads None j Hw) as (out & t & Ho & Hu & Hd). exists t.
  assert (G : forall A (f : str -> A), Ser.final_check (Ser.o_warnings o)
     (SerBase.bind (Ser.json_text_of E (Ser.z_js (Ser.build E (Ser.levels E Ser.ser_limit) s) v (Ser.o_include o) (Ser.o_exclude o) (Ser.start c true o)))
        (fun t => SerBase.ret (f t))) = Ser.Returned (f t) w).
  { intros A f. unfold Ser.to_json in Hj. remember (Ser.z_js (Ser.build E (Ser.levels E Ser.ser_limit) s) v (Ser.o_include o) (Ser.o_exclude o) (Ser.start c true o)) as m eqn:Em. clear Em.
    destruct m as [ws r]. unfold Ser.final_check in *. unfold Ser.json_text_of, SerBase.bind. cbn [fst snd] in *. destruct r as [j'|e]; [|discriminate].
    assert (j' = j) as -> by (destruct (Ser.o_warnings o); [congruence|congruence|destruct (is_nil ws); congruence]).
    rewrite Ho. rewrite Hu. cbn [SerBase.opt SerBase.ret fst snd]. rewrite !app_nil_r.
    destruct (Ser.o_warnings o); try congruence. destruct (is_nil ws); congruence. }
  split; [|split].
  - unfold Ser.to_json. cbn [Ser.build]. unfold Ser.json_ser, Ser.simple. cbn [Ser.z_js Ser.start SerBase.x_round_trip]. rewrite Hr. apply G.
  - unfold Ser.to_python. cbn [Ser.build]. unfold Ser.json_ser, Ser.simple. cbn [Ser.z_py Ser.start SerBase.x_round_trip]. rewrite Hr. apply G.
  - intros inner opts obj <-. cbn [input_object json_to_py]. unfold call_python.
    rewrite (C76_document parse python_parse inner (IPy (PStr t)) _ (utf8 t) Lax eq_refl).
    cbn [call_state st_partial]. rewrite (Hp t _ Hd). change (set_extra (set_input_type ITJson _) _) with (call_state ITJson opts).
    destruct (inner (IJson j) (call_state ITJson opts)). reflexivity.
Qed.
Print Assumptions C76_round_trip.

(** Finding: outside of JSON mode the text is written by the serializer of S in Python mode, so it
    may not be the JSON of the value. *)
Definition ser_env : SerBase.env :=
  {| SerBase.e_class := fun _ => {| SerBase.ci_ser := None; SerBase.ci_dataclass := None; SerBase.ci_enum := false |}; SerBase.e_sub := N.eqb;
     SerBase.e_def := fun _ => None; SerBase.e_str := fun _ => None; SerBase.e_hash := fun _ => true; SerBase.e_prop := fun _ _ => None;
     SerBase.e_ryu := fun _ => lit "1.5"; SerBase.e_stack := 5 |}.
Definition ser_opts : Ser.options :=
  {| Ser.o_by_alias := None; Ser.o_exclude_unset := false; Ser.o_exclude_defaults := false; Ser.o_exclude_none := false; Ser.o_round_trip := true;
     Ser.o_warnings := Ser.WWarn; Ser.o_fallback := None; Ser.o_as_any := false; Ser.o_include := None; Ser.o_exclude := None |}.
Definition ser_conf : SerBase.config := {| SerBase.c_inf_nan := SerBase.INull; SerBase.c_bytes := MUtf8 |}.
Theorem C76_mode_refuted : exists E s c o v,
  Ser.o_round_trip o = true
  /\ Ser.to_json E (SerBase.SerJson s) c o v = Ser.Returned (JStr (lit "2")) []
  /\ Ser.to_python E (SerBase.SerJson s) c false o v = Ser.Returned (PStr (lit "1")) [].
Proof.
  exists ser_env, (SerBase.SerFunction SerBase.WhenJson false (fun _ _ => inl (PInt 2)) SerBase.SerInt (Some SerBase.SerInt)), ser_conf, ser_opts, (PInt 1).
  split; [reflexivity|]. split; lazy; reflexivity.
Qed.
(** Finding: leaving out an any schema makes the match exact, so that a smart union prefers
    json(any) to a later schema for which bytes are an exact match; json(S) is not exact for any S
    that is as permissive. *)
Theorem C76_any_refuted : forall python_parse,
  (forall m, python_parse (lit "1") m = inl (PInt 1)) -> exists parse,
  let bytes_choice := {| ch_validator := bytes_validate {| bc_strict := false; bc_mode := MUtf8; bc_min := None; bc_max := None |}; ch_label := lit "bytes" |} in
  let member v := validate_smart None [{| ch_validator := v; ch_label := lit "json" |}; bytes_choice] in
  let o := {| op_strict := None; op_from_attributes := None; op_by_alias := None; op_by_name := None; op_partial := PartialOff |} in
  call_python (member (json_build parse python_parse (Some SAny) (fun _ => any_validate))) o (PBytes (lit "1")) = VOk (PInt 1)
  /\ call_python (member (json_validate parse python_parse (Some any_validate))) o (PBytes (lit "1")) = VOk (PBytes (lit "1")).
Proof.
  intros python_parse H. exists (fun _ _ => inl (JInt 1)). cbn zeta. split; [|lazy; reflexivity].
  unfold call_python, validate_smart. cbn. change (bytes_value (PBytes (lit "1"))) with (lit "1"). rewrite H. reflexivity.
Qed.
Print Assumptions C76_mode_refuted.
Print Assumptions C76_any_refuted.

Lemma shape_spec : forall v a k, call_shape v = Some (a, k) <-> arguments_of v a k.
Proof.
  intros v a k. unfold call_shape, arguments_of. split.
  - destruct (strip v) as [|b|z|f|t|b|l|l|l|l|l|cls at'|cls w]; try discriminate.
    + destruct l as [|x [|y [|]]]; try discriminate. destruct (strip x) eqn:Ex; try discriminate. destruct (strip y) eqn:Ey; try discriminate.
      intros [= -> ->]. left. exists x, y. auto.
    + intros [= <- ->]. auto.
  - intros [(x & y & -> & -> & ->)|[-> ->]]; reflexivity.
Qed.

Section C77.
Variable world : Type.
Variable f : callee world.
Notation call_validate := (call_validate world f).
(** Without valid arguments the function is not called; the errors are those of the
    arguments. *)
Theorem C77_invalid : forall args ret i s w e s', args i s = (VErr e, s') -> call_validate args ret i s w = ((VErr e, s'), w).
Proof. intros args ret i s w e s' H. unfold JsonCall.call_validate. rewrite H. reflexivity. Qed.
(** With valid arguments it is called once, with them; what it raises is raised (also
    ValueError), what it returns is validated, with errors located at "return". *)
Theorem C77_called : forall args ret i s w v s1 a k, args i s = (VOk v, s1) -> arguments_of v a k ->
  exists r w', f a k w = (r, w') /\ snd (call_validate args ret i s w) = w'
  /\ fst (fst (call_validate args ret i s w)) =
     match r, ret with
     | inr x, _ => VErr (InternalErr x)
     | inl r, None => VOk r
     | inl r, Some ret =>
         match fst (ret (IPy r) s1) with
         | VErr (LineErrors es) => VErr (LineErrors (map (with_outer (LStr (lit "return"))) es))
         | x => x
         end
     end.
Proof.
  intros args ret i s w v s1 a k H Hs. apply shape_spec in Hs. unfold JsonCall.call_validate. rewrite H, Hs. destruct (f a k w) as [r w'].
  exists r, w'. split; [reflexivity|]. destruct r as [r|x]; [|auto]. destruct ret as [ret|]; [|auto]. destruct (ret (IPy r) s1) as [[u|e] s2]; [auto|].
  split; [reflexivity|]. destruct e; reflexivity.
Qed.
(** An arguments validator that returns something else: TypeError, and no call. *)
Theorem C77_shape : forall args ret i s w v s1, args i s = (VOk v, s1) -> (forall a k, ~ arguments_of v a k) ->
  call_validate args ret i s w = ((VErr (InternalErr XTypeError), s1), w).
Proof.
  intros args ret i s w v s1 H N. unfold JsonCall.call_validate. rewrite H. destruct (call_shape v) as [[a k]|] eqn:E; [|reflexivity].
  apply shape_spec in E. contradiction (N a k E).
Qed.
End C77.

(** With a log of the calls as the world: at most one call, and exactly one if the
    arguments are valid. *)
Theorem C77_once : forall (f : list pyval -> list (pyval * pyval) -> pyval + pyexc) args ret i s,
  let logged := fun a k (log : list (list pyval * list (pyval * pyval))) => (f a k, log ++ [(a, k)]) in
  forall log, match fst (args i s) with
  | VErr _ => snd (call_validate _ logged args ret i s log) = log
  | VOk v => (exists a k, arguments_of v a k /\ snd (call_validate _ logged args ret i s log) = log ++ [(a, k)])
             \/ ((forall a k, ~ arguments_of v a k) /\ snd (call_validate _ logged args ret i s log) = log)
  end.
Proof.
  intros f args ret i s logged log. destruct (args i s) as [[v|e] s1] eqn:E; cbn [fst].
  - destruct (call_shape v) as [[a k]|] eqn:Es.
    + apply shape_spec in Es. left. exists a, k. split; [exact Es|]. destruct (C77_called _ logged args ret i s log v s1 a k E Es) as (r & w' & Hf & -> & _). injection Hf as _ <-. reflexivity.
    + right. assert (N : forall a k, ~ arguments_of v a k) by (intros a k Ha; apply shape_spec in Ha; congruence). split; [exact N|].
      rewrite (C77_shape _ logged args ret i s log v s1 E N). reflexivity.
  - rewrite (C77_invalid _ logged args ret i s log e s1 E). reflexivity.
Qed.

(** An arguments schema always gives arguments. *)
Theorem C77_arguments : forall c va i s v s', Arguments.arguments_validate c va i s = (VOk v, s') -> exists a k, arguments_of v a k.
Proof.
  intros c va i s v s'. unfold Arguments.arguments_validate. destruct (va i) as [ai|e]; [|discriminate].
  assert (F : forall a s1, Arguments.args_finish a s1 = (VOk v, s') -> exists a k, arguments_of v a k).
  { intros a s1. unfold Arguments.args_finish. destruct (Arguments.aa_errors a); [|discriminate]. intros [= <- _]. eexists _, _. left. eexists _, _. repeat split; reflexivity. }
  destruct (Arguments.params_loop _ _ _ _ _ _ _ _ _) as [[a|e] s1]; [|discriminate].
  destruct (Arguments.var_args_stage _ _ _ _) as [[a2|e] s2]; [|discriminate].
  destruct (Arguments.var_kwargs_stage _ _ _ _) as [[[a3 rem]|e] s3]; [|discriminate].
  unfold Arguments.unpacked_stage. destruct (Arguments.ac_unpacked c); [|apply F]. destruct (Arguments.ac_var_kwargs c) as [vk|]; [|discriminate].
  destruct (vk _ _) as [[w|e] s4].
  - destruct (Assign.as_dict w); [apply F|discriminate].
  - destruct e; try discriminate. apply F.
Qed.

(** Finding: in validate_json what the function returns is validated as JSON input, although it is
    a Python object. *)
Theorem C77_mode_refuted : exists (vj vp : validator) i s,
  x_input_type (st_extra s) = ITJson
  /\ fst (fst (call_validate unit (fun _ _ w => (inl (PInt 1), w)) (fun _ s => (VOk (PDict []), s)) (Some (json_or_python vj vp)) i s tt)) = VOk (PStr (lit "json"))
  /\ fst (vp (IPy (PInt 1)) s) = VOk (PStr (lit "python")).
Proof.
  exists (fun _ s => (VOk (PStr (lit "json")), s)), (fun _ s => (VOk (PStr (lit "python")), s)), (IJson (JObj [])),
    (call_state ITJson {| op_strict := None; op_from_attributes := None; op_by_alias := None; op_by_name := None; op_partial := PartialOff |}).
  repeat split.
Qed.
Print Assumptions C77_invalid.
Print Assumptions C77_called.
Print Assumptions C77_shape.
Print Assumptions C77_once.
Print Assumptions C77_arguments.
Print Assumptions C77_mode_refuted.

Section C78.
Variable is_callable is_type : pyval -> bool.
Variable py_issubclass : pyval -> bool + pyexc.
(** A callable schema returns exactly the callable Python objects, themselves, whatever the
    strictness; it is never better than a lax match. *)
Theorem C78_callable : forall i s r s', callable_validate is_callable i s = (r, s') ->
  (forall v, r = VOk v <-> i = IPy v /\ is_callable v = true)
  /\ (forall e, r = VErr e -> e = LineErrors [new_error ECallableType i])
  /\ (forall x, st_exactness s' = Some x -> x = Lax).
Proof.
  intros i s r s' H. unfold callable_validate, val_err in H.
  assert (X : forall x, st_exactness (floor_exactness Lax s) = Some x -> x = Lax).
  { intros x. unfold floor_exactness. destruct (st_exactness s) as [[]|] eqn:E; cbn; rewrite ?E; congruence. }
  destruct i as [v|j|t|v]; [destruct (is_callable v) eqn:E|..]; injection H as <- <-; (split; [|split; [|exact X]]); try (intros e; congruence);
    intros v'; (split; [intros Hv; try discriminate Hv|intros [Hv Hc]; try discriminate Hv]).
  - injection Hv as <-. auto.
  - injection Hv as <-. reflexivity.
  - injection Hv as <-. congruence.
Qed.
(** An is-subclass schema returns exactly the classes for which issubclass says so; what
    issubclass raises is raised; other input is an error. *)
Theorem C78_subclass : forall i s, exists r, is_subclass_validate is_type py_issubclass i s = (r, s)
  /\ (forall v, r = VOk v <-> i = IPy v /\ is_type v = true /\ py_issubclass v = inl true)
  /\ (forall x, r = VErr (InternalErr x) <-> exists v, i = IPy v /\ is_type v = true /\ py_issubclass v = inr x)
  /\ (forall es, r = VErr (LineErrors es) -> es = [new_error (match i with IPy _ => EIsSubclassOf | _ => ENeedsPythonObject end) i]).
Proof.
  intros i s. unfold is_subclass_validate, val_err. destruct i as [v|j|t|v]; [destruct (is_type v) eqn:E; [destruct (py_issubclass v) as [[]|x] eqn:Ep|]|..];
    eexists; (split; [reflexivity|]); repeat split; intros; try congruence;
    repeat match goal with
    | H : _ /\ _ |- _ => destruct H
    | H : exists _, _ |- _ => destruct H
    | H : IPy _ = IPy _ |- _ => injection H as <-
    | H : VOk _ = VOk _ |- _ => injection H as <-
    | H : VErr _ = VErr _ |- _ => injection H as <-
    end; try congruence; eauto.
Qed.
End C78.
Print Assumptions C78_callable.
Print Assumptions C78_subclass.

(** Concrete cases. *)
Definition opts0 : call_opts := {| op_strict := Some true; op_from_attributes := None; op_by_alias := None; op_by_name := None; op_partial := PartialOff |}.
Definition parse0 (b : bytes) (m : partial_mode) : json + N := if list_eq_dec N.eq_dec b (lit "[1]") then inl (JArr [JInt 1]) else if list_eq_dec N.eq_dec b (lit "x") then inl (JStr (lit "[1]")) else inr 7%N.
Definition ints0 : validator := list_validate {| co_strict := false; co_min := None; co_max := None; co_fail_fast := false |} (Some (int_validate 4300 false None)) validate_list.
Example C76_nonvacuous :
  document (IPy (PSub 3 (PStr (lit "[1]")))) = Some (lit "[1]", Lax)
  /\ call_python (json_validate parse0 (fun _ _ => inr 0%N) (Some ints0)) opts0 (PStr (lit "[1]")) = VOk (PList [PInt 1])
  /\ call_python (json_validate parse0 (fun _ _ => inr 0%N) (Some ints0)) opts0 (PStr (lit "[")) = val_err (EJsonInvalid 7) (IPy (PStr (lit "[")))
  /\ call_json parse0 (json_validate parse0 (fun _ _ => inr 0%N) (Some ints0)) opts0 (PStr (lit "x")) = VOk (PList [PInt 1])
  /\ call_python (json_validate parse0 (fun _ _ => inr 0%N) (Some ints0)) opts0 (PInt 1) = val_err EJsonType (IPy (PInt 1)).
Proof. repeat split. Qed.
Definition sum0 : callee (list pyval) := fun a k log => (match a with [PInt x; PInt y] => inl (PInt (x + y)) | _ => inr XValueError end, PList a :: log).
Example C77_nonvacuous :
  let args v := fun (_ : input) (s : state) => (VOk v, s) in
  let run v := call_validate _ sum0 (args v) (Some (int_validate 4300 true (Some {| Numbers.ic_multiple_of := None; Numbers.ic_le := Some (Numbers.I64 4%Z); Numbers.ic_lt := None; Numbers.ic_ge := None; Numbers.ic_gt := None |})))
                 (IPy PNone) (call_state ITPython opts0) [] in
  arguments_of (PTuple [PTuple [PInt 1; PInt 2]; PDict []]) [PInt 1; PInt 2] []
  /\ fst (fst (run (PTuple [PTuple [PInt 1; PInt 2]; PDict []]))) = VOk (PInt 3)
  /\ snd (run (PTuple [PTuple [PInt 1; PInt 2]; PDict []])) = [PList [PInt 1; PInt 2]]
  /\ fst (fst (run (PTuple [PTuple [PInt 3; PInt 2]; PDict []]))) = VErr (LineErrors [new_error_loc ELessThanEqual (IPy (PInt 5)) (LStr (lit "return"))])
  /\ fst (fst (run (PDict []))) = VErr (InternalErr XValueError)
  /\ fst (fst (run (PList []))) = VErr (InternalErr XTypeError).
Proof. cbv zeta. split; [left; eexists _, _; repeat split|]. repeat split. Qed.
Example C78_nonvacuous :
  callable_validate (fun v => match v with PObj 9 _ => true | _ => false end) (IPy (PObj 9 [])) (call_state ITPython opts0) = (VOk (PObj 9 []), call_state ITPython opts0)
  /\ fst (is_subclass_validate (fun v => match v with PObj 1 _ => true | _ => false end) (fun v => inl true) (IPy (PObj 1 [])) (call_state ITPython opts0)) = VOk (PObj 1 [])
  /\ fst (is_subclass_validate (fun v => match v with PObj 1 _ => true | _ => false end) (fun v => inl true) (IJson (JInt 1)) (call_state ITPython opts0)) = val_err ENeedsPythonObject (IJson (JInt 1)).
Proof. repeat split. Qed.
Example C76_nonvacuous_round_trip : exists t,
  Ser.to_json ser_env (SerBase.SerJson (SerBase.SerList Filter.any_filter SerBase.SerInt)) ser_conf ser_opts (PList [PInt 1; PInt 2]) = Ser.Returned (JStr t) []
  /\ t = lit "[1,2]" /\ JsonTextSpec.writable (fun _ => (Floats.SpecFloat.S754_zero false)) (fun _ => lit "1.5") (JArr [JInt 1; JInt 2])
  /\ reads_json (JsonTextProps.denotes (fun _ => (Floats.SpecFloat.S754_zero false))) (fun _ _ => inl (JArr [JInt 1; JInt 2])) (JArr [JInt 1; JInt 2]).
Proof. exists (lit "[1,2]"). split; [lazy; reflexivity|]. split; [reflexivity|]. split; [repeat constructor|]. intros t m _. reflexivity. Qed.
