(** C63: enums. *)
From Coq Require Import List NArith ZArith Bool Lia.
From Verif Require Import Base Float64 IntParse Numbers NumbersSpec Values VState LookupKey Collections Child Inputs Scalars Literal LiteralSpec LiteralProofs Classes Enum EnumSpec EnumProofs ModelFieldsProps.
Import ListNotations.
Open Scope nat_scope.

Section Props.
Variable parse_f64 : str -> option f64.
Variable py_str : pyval -> str.
Variable f64_to_string : f64 -> str.
Variable max_digits : N.
Variable subclass : N -> N -> bool.
Variable call : pyval -> pyval + pyexc.
Notation enum := (enum_validate parse_f64 py_str f64_to_string max_digits subclass call).
Notation reads := (reads parse_f64 py_str f64_to_string max_digits).

(** A member is returned as it is, in every mode, without any effect. *)
Theorem C63_instance : forall c v s, exact_instance v (en_cls c) = true -> enum c (IPy v) s = (VOk v, s).
Proof. intros c v s H. unfold enum_validate. rewrite H. reflexivity. Qed.

(** Neither a member nor refused by strict mode. *)
Definition considered (c : enum_cfg) (i : input) (s : state) : Prop :=
  (forall v, i = IPy v -> exact_instance v (en_cls c) = false) /\
  (strict_or s (en_strict c) = true -> x_input_type (st_extra s) <> ITPython).

(** Strict validation of Python data accepts members only. *)
Theorem C63_strict_python : forall c i s,
  (forall v, i = IPy v -> exact_instance v (en_cls c) = false) ->
  strict_or s (en_strict c) = true -> x_input_type (st_extra s) = ITPython ->
  enum c i s = (VErr (LineErrors [{| le_type := EIsInstance; le_loc := LEmpty; le_input := i |}]), s).
Proof.
  intros c i s H S T. unfold enum_validate. rewrite S, T. destruct i as [v| | |]; [rewrite (H v eq_refl)| | |]; reflexivity.
Qed.

Lemma considered_go : forall c i s, considered c i s -> exists go,
  enum c i s = go /\
  go = (let s := floor_exactness Lax s in
    match enum_value parse_f64 py_str f64_to_string max_digits (en_kind c) (lk_build (map fst (en_members c))) (strict_or s (en_strict c)) i with
    | VErr e => (VErr e, s)
    | VOk (Some id) => match nth_error (en_members c) id with Some m => (VOk (snd m), s) | None => (VErr Panic, s) end
    | VOk None =>
        match call (as_python i) with
        | inl r => (VOk r, s)
        | inr _ =>
            match en_missing c with
            | Some f =>
                match f (input_object i) with
                | inr _ => (val_err EEnum i, s)
                | inl r =>
                    if is_instance subclass r (en_cls c) then (VOk r, s)
                    else match r with PNone => (val_err EEnum i, s) | _ => (VErr (InternalErr XTypeError), s) end
                end
            | None => (val_err EEnum i, s)
            end
        end
    end).
Proof.
  intros c i s [H1 H2]. eexists. split; [|reflexivity]. unfold enum_validate.
  assert (F : strict_or (floor_exactness Lax s) (en_strict c) = strict_or s (en_strict c)).
  { unfold floor_exactness, strict_or. destruct (st_exactness s) as [[]|]; reflexivity. }
  rewrite F. assert (G : strict_or s (en_strict c) && match x_input_type (st_extra s) with ITPython => true | _ => false end = false).
  { destruct (strict_or s (en_strict c)); [|reflexivity]. cbn [andb]. specialize (H2 eq_refl). destruct (x_input_type (st_extra s)); congruence. }
  rewrite G. destruct i as [v| | |]; [rewrite (H1 v eq_refl)| | |]; reflexivity.
Qed.

(** An input read as the value of exactly one member gives that member, whatever
    calling the class or [_missing_] would do; the match is not better than lax. *)
Theorem C63_member : forall c i s v m,
  distinct_values (en_members c) -> Forall (fun km => value_kind (en_kind c) (fst km)) (en_members c) ->
  considered c i s ->
  reads (en_kind c) (strict_or s (en_strict c)) i v -> proper_float v -> comparable (en_members c) v ->
  ~ out_of_reach (en_kind c) (en_members c) v ->
  the_member (en_members c) v m ->
  enum c i s = (VOk m, floor_exactness Lax s).
Proof.
  intros c i s v m D VK C R PF HC HO [HV HU]. destruct (considered_go c i s C) as (go & -> & ->). cbv zeta.
  assert (F : strict_or (floor_exactness Lax s) (en_strict c) = strict_or s (en_strict c)).
  { unfold floor_exactness, strict_or. destruct (st_exactness s) as [[]|]; reflexivity. }
  rewrite F. destruct (value_finds _ _ _ _ _ _ _ _ _ _ D VK R HC HO HV) as [id Hid]. rewrite Hid.
  destruct (value_sound _ _ _ _ _ _ _ _ _ _ D VK R PF Hid) as (k & m' & N & E). rewrite N. cbn [snd].
  rewrite (HU m'); [reflexivity|]. exists k. split; [eapply nth_error_In, N|exact E].
Qed.

(** An input that is not read as the value of a member: the class is called with the
    Python object, or with None if there is none; if that raises, [_missing_] is asked;
    it may give an instance of the class or None, anything else is a TypeError; and
    otherwise there is one enum error about the input. *)
Theorem C63_no_member : forall c i s,
  distinct_values (en_members c) -> Forall (fun km => value_kind (en_kind c) (fst km)) (en_members c) ->
  considered c i s ->
  (en_kind c = PlainEnum -> exists v, i = IPy v \/ exists j, i = IJson j) ->
  (forall v, reads (en_kind c) (strict_or s (en_strict c)) i v ->
     no_member (en_members c) v /\ ~ out_of_reach (en_kind c) (en_members c) v /\ proper_float v) ->
  let called := call (match i with IPy v => v | _ => PNone end) in
  let enum_error := VErr (LineErrors [{| le_type := EEnum; le_loc := LEmpty; le_input := i |}]) in
  exists r, enum c i s = (r, floor_exactness Lax s) /\
  (forall x, called = inl x -> r = VOk x) /\
  (forall e, called = inr e -> en_missing c = None -> r = enum_error) /\
  (forall e missing, called = inr e -> en_missing c = Some missing ->
     (forall x, missing (input_object i) = inl x -> is_instance subclass x (en_cls c) = true -> r = VOk x) /\
     (missing (input_object i) = inl PNone -> r = enum_error) /\
     (forall e', missing (input_object i) = inr e' -> r = enum_error) /\
     (forall x, missing (input_object i) = inl x -> is_instance subclass x (en_cls c) = false -> x <> PNone -> r = VErr (InternalErr XTypeError))).
Proof.
  intros c i s D VK C HP H called err. destruct (considered_go c i s C) as (go & -> & ->). cbv zeta.
  assert (F : strict_or (floor_exactness Lax s) (en_strict c) = strict_or s (en_strict c)).
  { unfold floor_exactness, strict_or. destruct (st_exactness s) as [[]|]; reflexivity. }
  rewrite F. rewrite (value_none _ _ _ _ _ _ _ _ D VK); [| |exact H].
  2:{ intros K. destruct (HP K) as (v & [->|(j & ->)]); rewrite K; eexists; constructor. }
  change (as_python i) with (match i with IPy v => v | _ => PNone end). fold called. destruct called as [x|e].
  - eexists. split; [reflexivity|]. split; [intros ? [= <-]; reflexivity|]. split; [discriminate|]. discriminate.
  - destruct (en_missing c) as [f|].
    + destruct (f (input_object i)) as [x|e'] eqn:Ef.
      * destruct (is_instance subclass x (en_cls c)) eqn:Ex.
        { eexists. split; [reflexivity|]. split; [discriminate|]. split; [discriminate|]. intros ? f' _ [= <-]. rewrite Ef.
          split; [intros ? [= <-] _; reflexivity|]. split; [intros [= ->]; discriminate Ex|]. split; [discriminate|]. intros ? [= <-]. congruence. }
        { destruct x; (eexists; split; [reflexivity|]; split; [discriminate|]; split; [discriminate|]; intros ? f' _ [= <-]; rewrite Ef;
            split; [intros ? [= <-]; congruence|]; split; [first [discriminate|reflexivity]|]; split; [discriminate|]; intros ? [= <-] _ X; first [contradiction X; reflexivity|reflexivity]). }
      * eexists. split; [reflexivity|]. split; [discriminate|]. split; [discriminate|]. intros ? f' _ [= <-]. rewrite Ef.
        split; [discriminate|]. split; [discriminate|]. split; [reflexivity|discriminate].
    + eexists. split; [reflexivity|]. split; [discriminate|]. split; [reflexivity|discriminate].
Qed.

(** For Python data in lax mode a plain enum schema agrees with calling the class. *)
Theorem C63_agrees_with_class : forall c v s m,
  en_kind c = PlainEnum -> en_missing c = None -> distinct_values (en_members c) -> enum_class (en_cls c) (en_members c) call ->
  exact_instance v (en_cls c) = false -> strict_or s (en_strict c) = false ->
  proper_float v -> comparable (en_members c) v -> ~ out_of_reach PlainEnum (en_members c) v ->
  the_member (en_members c) v m \/ no_member (en_members c) v ->
  (call v = inl m <-> fst (enum c (IPy v) s) = VOk m) /\
  ((exists e, call v = inr e) <-> fst (enum c (IPy v) s) = VErr (LineErrors [{| le_type := EEnum; le_loc := LEmpty; le_input := IPy v |}])).
Proof.
  intros c v s m K M D F NI NS PF HC HO H. destruct (F v) as [F1 F2].
  assert (C : considered c (IPy v) s) by (split; [intros ? [= <-]; exact NI|congruence]).
  assert (VK : Forall (fun km => value_kind (en_kind c) (fst km)) (en_members c)) by (rewrite K; apply Forall_forall; intros; exact Logic.I).
  destruct H as [H|H].
  - rewrite (F1 m H). rewrite (C63_member c (IPy v) s v m); auto; try (rewrite K; solve [constructor|exact HO]).
    cbn [fst]. split; [split; reflexivity|]. split; [intros [e He]; discriminate|discriminate].
  - destruct (F2 H NI) as [e He]. destruct (C63_no_member c (IPy v) s D VK C) as (r & E & R1 & R2 & _).
    + intros _. exists v. auto.
    + rewrite K. intros w R. inversion R; subst. auto.
    + rewrite E. cbn [fst]. rewrite (R2 e He M). rewrite He. split; [split; discriminate|]. split; [reflexivity|eauto].
Qed.

(** An int enum with 64-bit values gives an error for any other integer: neither the
    class nor [_missing_] is asked. *)
Theorem C63_int_outside : forall c i s z k m,
  en_kind c = IntEnum -> considered c i s -> In (k, m) (en_members c) -> is_small_int k ->
  reads IntEnum (strict_or s (en_strict c)) i (PInt z) -> is_big_int (PInt z) ->
  exists e, enum c i s = (VErr (LineErrors [e]), floor_exactness Lax s) /\ le_type e = EIntParsingSize.
Proof.
  intros c i s z k m K C Hk Sm R B. destruct (considered_go c i s C) as (go & -> & ->). cbv zeta.
  assert (F : strict_or (floor_exactness Lax s) (en_strict c) = strict_or s (en_strict c)).
  { unfold floor_exactness, strict_or. destruct (st_exactness s) as [[]|]; reflexivity. }
  rewrite F, K. cbn [enum_value]. inversion R as [| |? ? n e V| |]; subst. unfold lk_validate_int.
  destruct (lk_int (lk_build (map fst (en_members c)))) eqn:L.
  - exfalso. destruct k; try contradiction. assert (FZ : fits_i64 z = true) by (apply fits_iff; exact Sm).
    assert (Hi : In (PInt z) (map fst (en_members c))) by (change (PInt z) with (fst (PInt z, m)); apply in_map, Hk).
    destruct (i_int_c _ _ (inv_build _) _ FZ Hi) as [id Hid]. rewrite L in Hid. discriminate.
  - rewrite V. unfold into_i64. destruct (fits_i64 (int_value n)) eqn:FF; [apply fits_iff in FF; cbn in B; exfalso; lia|].
    eexists. split; reflexivity.
Qed.
End Props.
Print Assumptions C63_instance.
Print Assumptions C63_strict_python.
Print Assumptions C63_member.
Print Assumptions C63_no_member.
Print Assumptions C63_agrees_with_class.
Print Assumptions C63_int_outside.

(** Colours: 1, "a", 2.5, None and a pair; and calling that class. *)
Definition ex_members : list (pyval * pyval) :=
  [(PInt 1, PObj 7 [(lit "n", PInt 0)]); (PStr (lit "a"), PObj 7 [(lit "n", PInt 1)]); (PFloat (f_of_Z 5), PObj 7 [(lit "n", PInt 2)]);
   (PNone, PObj 7 [(lit "n", PInt 3)]); (PTuple [PInt 1; PInt 2], PObj 7 [(lit "n", PInt 4)])].
Definition ex_call (v : pyval) : pyval + pyexc :=
  match find (fun km => py_eq (fst km) v) ex_members with Some (_, m) => inl m | None => if exact_instance v 7 then inl v else inr XValueError end.
Definition ex_enum (kind : enum_kind) (ms : list (pyval * pyval)) (miss : option (pyval -> pyval + pyexc)) : enum_cfg :=
  {| en_cls := 7; en_kind := kind; en_members := ms; en_missing := miss; en_strict := false |}.
Definition ex_run (call : pyval -> pyval + pyexc) (c : enum_cfg) (i : input) : vres pyval :=
  fst (enum_validate (fun _ => None) (fun _ => []) (fun _ => []) 4300 N.eqb call c i ex_state).

Lemma ex_distinct : distinct_values ex_members.
Proof.
  intros i j a b Ha Hb E. do 5 (destruct i as [|i]; [do 5 (destruct j as [|j]; [first [reflexivity|cbn in Ha, Hb; injection Ha as <-; injection Hb as <-; vm_compute in E; discriminate E]|]); destruct j; discriminate Hb|]).
  destruct i; discriminate Ha.
Qed.

(** Members are found by value, in lax mode also from subclasses and integral floats. *)
Example C63_ex_plain :
  map (ex_run ex_call (ex_enum PlainEnum ex_members None))
    [IPy (PInt 1); IPy (PSub 9 (PStr (lit "a"))); IPy (PFloat (f_of_Z 1)); IPy PNone; IPy (PTuple [PInt 1; PInt 2]); IJson (JStr (lit "a")); IJson (JFloat (f_of_Z 5))]
  = [VOk (PObj 7 [(lit "n", PInt 0)]); VOk (PObj 7 [(lit "n", PInt 1)]); VOk (PObj 7 [(lit "n", PInt 0)]); VOk (PObj 7 [(lit "n", PInt 3)]);
     VOk (PObj 7 [(lit "n", PInt 4)]); VOk (PObj 7 [(lit "n", PInt 1)]); VOk (PObj 7 [(lit "n", PInt 2)])].
Proof. vm_compute. reflexivity. Qed.
(** The hypotheses of C63_member hold for the pair. *)
Example C63_ex_member :
  let c := ex_enum PlainEnum ex_members None in let v := PTuple [PInt 1; PInt 2] in let m := PObj 7 [(lit "n", PInt 4)] in
  distinct_values (en_members c) /\ Forall (fun km => value_kind (en_kind c) (fst km)) (en_members c) /\ considered c (IPy v) ex_state /\
  comparable (en_members c) v /\ ~ out_of_reach PlainEnum (en_members c) v /\ the_member (en_members c) v m.
Proof.
  cbv zeta. split; [exact ex_distinct|]. split; [repeat constructor|]. split; [split; [intros ? [= <-]; reflexivity|discriminate]|].
  split; [left; reflexivity|]. split; [intros [B _]; exact B|]. split.
  - exists (PTuple [PInt 1; PInt 2]). split; [cbn; tauto|reflexivity].
  - intros m' (k & Hk & E). cbn in Hk. repeat (destruct Hk as [Hk|Hk]; [injection Hk as <- <-; first [reflexivity|vm_compute in E; discriminate E]|]). contradiction.
Qed.
(** ... and those of C63_no_member and C63_int_outside for an int enum with a
    [_missing_]. *)
Definition ex_ints : list (pyval * pyval) := [(PInt 1, PSub 7 (PInt 1)); (PInt 2, PSub 7 (PInt 2))].
Definition ex_missing (v : pyval) : pyval + pyexc := match v with PInt 3 => inl (PSub 7 (PInt 1)) | PInt 4 => inl (PInt 5) | PInt 5 => inr XValueError | _ => inl PNone end.
Example C63_ex_int :
  map (ex_run (fun _ => inr XValueError) (ex_enum IntEnum ex_ints (Some ex_missing)))
    [IPy (PStr (lit "2")); IPy (PBool true); IPy (PInt 3); IPy (PInt 4); IPy (PInt 5); IPy (PInt 6); IJson (JStr (lit "x")); IPy (PInt (2 ^ 63)); IPy (PSub 7 (PInt 1))]
  = [VOk (PSub 7 (PInt 2)); VOk (PSub 7 (PInt 1)); VOk (PSub 7 (PInt 1)); VErr (InternalErr XTypeError); val_err EEnum (IPy (PInt 5)); val_err EEnum (IPy (PInt 6));
     val_err EEnum (IJson (JStr (lit "x"))); val_err EIntParsingSize (IPy (PInt (2 ^ 63))); VOk (PSub 7 (PInt 1))].
Proof. vm_compute. reflexivity. Qed.
Example C63_ex_kinds :
  map (ex_run (fun _ => inr XValueError) (ex_enum StrEnum [(PStr (lit "a"), PSub 7 (PStr (lit "a")))] None)) [IPy (PBytes (lit "a")); IPy (PInt 1)]
    = [VOk (PSub 7 (PStr (lit "a"))); val_err EEnum (IPy (PInt 1))] /\
  map (ex_run (fun _ => inr XValueError) (ex_enum FloatEnum [(PFloat (f_of_Z 5), PSub 7 (PFloat (f_of_Z 5)))] None)) [IPy (PInt 5); IJson (JInt 5); IPy (PInt 4)]
    = [VOk (PSub 7 (PFloat (f_of_Z 5))); VOk (PSub 7 (PFloat (f_of_Z 5))); val_err EEnum (IPy (PInt 4))].
Proof. vm_compute. split; reflexivity. Qed.

Lemma ex_class : enum_class 7 ex_members ex_call.
Proof.
  intros v. unfold ex_call. destruct (find (fun km => py_eq (fst km) v) ex_members) as [[k m']|] eqn:F.
  - apply find_some in F. destruct F as [F1 F2]. cbn [fst] in F2. split.
    + intros m [_ U]. rewrite (U m'); [reflexivity|]. exists k. auto.
    + intros N. contradiction (N m'). exists k. auto.
  - split.
    + intros m [(k & Hk & E) _]. pose proof (find_none _ _ F (k, m) Hk) as X. cbn [fst] in X. congruence.
    + intros _ ->. eauto.
Qed.

(** Finding: JSON data that is the value of no member is accepted if some member has
    the value None, because the class is called with None instead of the data. *)
Theorem C63_json_refuted : exists c call j m,
  enum_class (en_cls c) (en_members c) call /\ distinct_values (en_members c) /\ no_member (en_members c) (json_to_py j) /\
  ex_run call c (IJson j) = VOk m.
Proof.
  exists (ex_enum PlainEnum ex_members None), ex_call, (JStr (lit "nonsense")), (PObj 7 [(lit "n", PInt 3)]).
  split; [exact ex_class|]. split; [exact ex_distinct|]. split; [|vm_compute; reflexivity].
  intros m' (k & Hk & E). cbn in Hk. repeat (destruct Hk as [Hk|Hk]; [injection Hk as <- <-; vm_compute in E; discriminate E|]). contradiction.
Qed.
Print Assumptions C63_json_refuted.

(** Finding: a member whose value is an integer outside 64 bits cannot be reached from
    its value if another member's value is an integer inside, although calling the class
    finds it. *)
Theorem C63_big_value_refuted : exists c call v m,
  the_member (en_members c) v m /\ In (v, m) (en_members c) /\ call v = inl m /\
  ex_run call c (IPy v) = val_err EIntParsingSize (IPy v).
Proof.
  exists (ex_enum PlainEnum [(PInt 1, PObj 7 [(lit "n", PInt 0)]); (PInt (2 ^ 63), PObj 7 [(lit "n", PInt 1)])] None), (fun _ => inl (PObj 7 [(lit "n", PInt 1)])), (PInt (2 ^ 63)), (PObj 7 [(lit "n", PInt 1)]).
  split; [split|].
  - exists (PInt (2 ^ 63)). split; [cbn; tauto|reflexivity].
  - intros m' (k & Hk & E). cbn in Hk. repeat (destruct Hk as [Hk|Hk]; [injection Hk as <- <-; first [reflexivity|vm_compute in E; discriminate E]|]). contradiction.
  - split; [cbn; tauto|]. split; [reflexivity|]. vm_compute. reflexivity.
Qed.
Print Assumptions C63_big_value_refuted.
