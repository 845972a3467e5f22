(** C85: what a validator returns, the serializer of the same schema writes without
    warnings. *)
From Coq Require Import List NArith ZArith Bool Lia.
From Verif Require Import Base Float64 BytesCodec Values VState LookupKey Collections Child Inputs Wrappers TaggedUnion ModelFields TypedDict Classes Interp InterpSpec InterpExamples ConformSpec ConformProps.
From Verif Require SerBase Ser Filter.
From Verif Require Import SerOf SerOfSpec SerOfCalm SerOfProofs.
Import ListNotations.
Open Scope nat_scope.

(** The definitions of the schema, as validators and as serializers. *)
Definition both_defined E defs strings w open (SE : SerBase.env) : Prop :=
  forall k d, defs k = Some d -> steady E defs strings w open d /\ exists s, ser_of w d = Built s /\ SerBase.e_def SE k = Some s.

(** C85: whatever the input, the options of the validation and those of the serialization
    (in both modes, with any include, exclude, fallback and flags, but without
    serialize_as_any): a value that validation with a steady schema returned is serialized
    by the serializer built from that schema without a warning.  Values are instances of
    built-in types only if the schema accepts anything somewhere. *)
Theorem C85_no_warnings : forall E defs fuel sc i st v st' w open SE s,
  holds_of proper defs sc -> run E defs fuel sc i st = (VOk v, st') ->
  steady E defs (from_strings i) w open sc -> both_defined E defs (from_strings i) w open SE -> ser_of w sc = Built s ->
  tidy v -> (open = true -> built_in v) ->
  forall c o, Ser.o_as_any o = false ->
    (forall json r shown, Ser.to_python SE s c json o v = Ser.Returned r shown -> shown = []) /\
    (forall r shown, Ser.to_json SE s c o v = Ser.Returned r shown -> shown = []).
Proof.
  intros E defs fuel sc i st v st' w open SE s W RUN ST DEF B T O c o NA. apply C29_result_conforms in RUN; [|exact W].
  assert (SU : suits SE (expected E defs (from_strings i) w open) s v) by (apply (conforms_suits E defs (from_strings i) w open SE DEF sc ST s v B RUN); now split).
  pose proof (suits_calm SE _ (expected_suits E defs (from_strings i) w open SE DEF) Ser.ser_limit s v SU) as CALM.
  assert (BY : forall json, by_schema (Ser.start c json o)) by (intros json; split; [cbn; now rewrite NA|reflexivity]).
  split.
  - intros json r shown. destruct (CALM _ (BY json)) as [P _]. destruct (P (Ser.o_include o) (Ser.o_exclude o)) as [P1 _].
    unfold Ser.to_python, Ser.final_check. destruct (snd _) as [a|e] eqn:G; [|discriminate]. rewrite (P1 a G).
    destruct (Ser.o_warnings o); cbn; intros [= _ <-]; reflexivity.
  - intros r shown. destruct (CALM _ (BY true)) as [P _]. destruct (P (Ser.o_include o) (Ser.o_exclude o)) as [_ P1].
    unfold Ser.to_json, Ser.final_check. destruct (snd _) as [a|e] eqn:G; [|discriminate]. rewrite (P1 a G).
    destruct (Ser.o_warnings o); cbn; intros [= _ <-]; reflexivity.
Qed.
Print Assumptions C85_no_warnings.

(** C85: and asking for errors in place of warnings does not turn a result into an
    exception: with [WError] and [WWarn] the calls end alike. *)
Definition asking (m : Ser.warnings_mode) (o : Ser.options) : Ser.options :=
  {| Ser.o_by_alias := Ser.o_by_alias o; Ser.o_exclude_unset := Ser.o_exclude_unset o; Ser.o_exclude_defaults := Ser.o_exclude_defaults o;
     Ser.o_exclude_none := Ser.o_exclude_none o; Ser.o_round_trip := Ser.o_round_trip o; Ser.o_warnings := m; Ser.o_fallback := Ser.o_fallback o;
     Ser.o_as_any := Ser.o_as_any o; Ser.o_include := Ser.o_include o; Ser.o_exclude := Ser.o_exclude o |}.
Theorem C85_error_mode_is_harmless : forall E defs fuel sc i st v st' w open SE s,
  holds_of proper defs sc -> run E defs fuel sc i st = (VOk v, st') ->
  steady E defs (from_strings i) w open sc -> both_defined E defs (from_strings i) w open SE -> ser_of w sc = Built s ->
  tidy v -> (open = true -> built_in v) ->
  forall c o, Ser.o_as_any o = false ->
    (forall json, Ser.to_python SE s c json (asking Ser.WError o) v = Ser.to_python SE s c json (asking Ser.WWarn o) v) /\
    Ser.to_json SE s c (asking Ser.WError o) v = Ser.to_json SE s c (asking Ser.WWarn o) v.
Proof.
  intros E defs fuel sc i st v st' w open SE s W RUN ST DEF B T O c o NA.
  destruct (C85_no_warnings E defs fuel sc i st v st' w open SE s W RUN ST DEF B T O c (asking Ser.WWarn o) NA) as [P J].
  unfold Ser.to_python, Ser.to_json, Ser.final_check in *. cbn [Ser.o_warnings asking] in *. split.
  - intros json. specialize (P json).
    change (Ser.start c json (asking Ser.WError o)) with (Ser.start c json (asking Ser.WWarn o)).
    change (Ser.o_include (asking Ser.WError o)) with (Ser.o_include (asking Ser.WWarn o)). change (Ser.o_exclude (asking Ser.WError o)) with (Ser.o_exclude (asking Ser.WWarn o)).
    destruct (snd _) as [a|e]; [|reflexivity]. now rewrite (P _ _ eq_refl).
  - change (Ser.start c true (asking Ser.WError o)) with (Ser.start c true (asking Ser.WWarn o)).
    change (Ser.o_include (asking Ser.WError o)) with (Ser.o_include (asking Ser.WWarn o)). change (Ser.o_exclude (asking Ser.WError o)) with (Ser.o_exclude (asking Ser.WWarn o)).
    destruct (snd _) as [a|e]; [|reflexivity]. now rewrite (J _ _ eq_refl).
Qed.
Print Assumptions C85_error_mode_is_harmless.

(** ** Building *)
(** C85: when a serializer can be built: chains and literals and unions are not empty, the
    variadic item of a tuple exists, there is no `arguments` schema, and additional items
    have a schema only if they are allowed. *)
Definition buildable (w : written) (sc : schema) : Prop :=
  match sc with
  | SChain [] | SLiteral [] | SUnion _ _ [] | SArguments _ _ _ _ => False
  | STuple c items => forall k, tn_variadic c = Some k -> k < length items
  | SModelFields c _ (Some _) _ => fo_extra c = ExtraAllow
  | STypedDict c _ (Some _) => w_td_extra w c = true
  | _ => True
  end.
Lemma all_built_ok {A B} (g : A -> built B) l : (forall a, In a l -> exists b, g a = Built b) -> exists r, all_built (map g l) = Built r /\ length r = length l.
Proof.
  induction l as [|a l IH]; intros H; [now exists []|]. destruct (H a (or_introl eq_refl)) as [b Q]. destruct IH as (r & R & LE); [intros; apply H; now right|].
  exists (b :: r). cbn [map all_built]. rewrite Q. cbn [bbind]. rewrite R. cbn. now rewrite LE.
Qed.
Lemma field_ok w req n m : (exists s, m = Built s) -> exists f, field_of w req n m = Built f.
Proof. intros [s ->]. unfold field_of. destruct (w_hidden w n); eexists; reflexivity. Qed.
Theorem C85_builds : forall w sc, everywhere (buildable w) sc -> exists s, ser_of w sc = Built s.
Proof.
  intros w sc H. induction H as [sc P H IH]. destruct sc; cbn [ser_of buildable children] in *; try (eexists; reflexivity); try contradiction;
    try (destruct (IH sc) as [s Q]; [cbn; auto|]; rewrite Q; eexists; reflexivity).
  - destruct expected; [contradiction|]. eexists; reflexivity.
  - destruct item as [sc|]; [destruct (IH sc) as [s Q]; [now left|]; rewrite Q|]; eexists; reflexivity.
  - destruct (all_built_ok (ser_of w) items) as (r & R & LE); [intros; now apply IH|]. rewrite R. cbn [bbind]. destruct (tn_variadic c) as [k|]; [|eexists; reflexivity].
    specialize (P k eq_refl). destruct (PeanoNat.Nat.leb_spec (length r) k) as [G|G]; [rewrite LE in G; lia|eexists; reflexivity].
  - destruct (IH sc1) as [s1 Q1]; [cbn; auto|]. destruct (IH sc2) as [s2 Q2]; [cbn; auto|]. rewrite Q1, Q2. eexists; reflexivity.
  - destruct steps as [|a l]; [contradiction|]. destruct (@exists_last _ (a :: l)) as (l' & sc & Q); [discriminate|]. rewrite Q in *. rewrite map_app. cbn [map]. rewrite last_last.
    apply IH. apply in_or_app. right. now left.
  - destruct (IH sc1) as [s1 Q1]; [cbn; auto|]. destruct (IH sc2) as [s2 Q2]; [cbn; auto|]. rewrite Q1, Q2. eexists; reflexivity.
  - apply IH. cbn. auto.
  - destruct choices as [|a l]; [contradiction|]. destruct (all_built_ok (fun c => ser_of w (fst c)) (a :: l)) as (r & R & LE).
    { intros c I. apply IH. now apply (in_map fst) in I. }
    rewrite R. cbn [bbind]. destruct r as [|s [|s' r]]; [discriminate| |]; eexists; reflexivity.
  - destruct (all_built_ok (fun c => ser_of w (snd c)) choices) as (r & R & LE).
    { intros c I. apply IH. now apply (in_map snd) in I. }
    rewrite R. eexists; reflexivity.
  - destruct (all_built_ok (fun f => field_of w true (fi_name (fst f)) (ser_of w (snd f))) fields) as (r & R & LE).
    { intros f I. apply field_ok, IH. apply in_or_app. left. now apply (in_map snd) in I. }
    rewrite R. destruct extras as [sc|]; cbn [extras_of]; [|eexists; reflexivity]. rewrite P.
    destruct (IH sc) as [s Q]; [apply in_or_app; right; apply in_or_app; left; now left|]. rewrite Q. eexists; reflexivity.
  - destruct (all_built_ok (fun f => field_of w (fi_required (fst f)) (fi_name (fst f)) (ser_of w (snd f))) fields) as (r & R & LE).
    { intros f I. apply field_ok, IH. apply in_or_app. left. now apply (in_map snd) in I. }
    rewrite R. destruct extras as [sc|]; cbn [extras_of]; [|eexists; reflexivity]. rewrite P.
    destruct (IH sc) as [s Q]; [apply in_or_app; right; now left|]. rewrite Q. eexists; reflexivity.
  - assert (G : exists r, all_built (flat_map (fun f : dinfo * schema => if dn_init_only (fst f) then [] else [field_of w true (dn_name (fst f)) (ser_of w (snd f))]) fields) = Built r).
    { assert (F : forall f, In f fields -> exists s, ser_of w (snd f) = Built s) by (intros f I; apply IH; apply in_or_app; left; now apply (in_map snd) in I).
      clear - F. induction fields as [|f fs IHf]; [now exists []|]. destruct IHf as [r R]; [intros; apply F; now right|]. cbn [flat_map].
      destruct (dn_init_only (fst f)); [now exists r|]. destruct (field_ok w true (dn_name (fst f)) _ (F f (or_introl eq_refl))) as [b Q]. cbn [app all_built]. rewrite Q. cbn [bbind]. rewrite R. eexists; reflexivity. }
    destruct G as [r R]. rewrite R. eexists; reflexivity.
Qed.
Print Assumptions C85_builds.

(** C85: a panic while building is an empty chain or a variadic item that does not exist. *)
Definition no_panic (sc : schema) : Prop :=
  match sc with SChain [] => False | STuple c items => forall k, tn_variadic c = Some k -> k < length items | _ => True end.
Lemma all_built_calm {A} (l : list (built A)) : (forall m, In m l -> m <> Panics) -> all_built l <> Panics.
Proof.
  induction l as [|m l IH]; intros H; cbn [all_built]; [discriminate|]. pose proof (H m (or_introl eq_refl)) as G. destruct m; cbn [bbind]; try congruence.
  assert (K := IH (fun m I => H m (or_intror I))). destruct (all_built l); cbn [bbind]; congruence.
Qed.
Lemma bbind_calm {A B} (m : built A) (f : A -> built B) : m <> Panics -> (forall a, f a <> Panics) -> bbind m f <> Panics.
Proof. intros H F. destruct m; cbn [bbind]; [apply F|discriminate|congruence]. Qed.
Lemma field_calm w req n m : m <> Panics -> field_of w req n m <> Panics.
Proof. intros H. unfold field_of. destruct (w_hidden w n); [discriminate|]. now apply bbind_calm. Qed.
Lemma extras_calm allow m : (forall s, m = Some s -> s <> Panics) -> extras_of allow m <> Panics.
Proof. intros H. destruct m as [s|]; cbn [extras_of]; [|discriminate]. destruct allow; [|discriminate]. apply bbind_calm; [now apply H|discriminate]. Qed.
Theorem C85_panics_only : forall w sc, everywhere no_panic sc -> ser_of w sc <> Panics.
Proof.
  intros w sc H. induction H as [sc P H IH].
  assert (ALL : forall {A} (g : A -> schema) (h : A -> built SerBase.ser -> built (str * SerBase.field SerBase.ser)) l,
    (forall a, In a l -> In (g a) (children sc)) -> (forall a m, m <> Panics -> h a m <> Panics) -> all_built (map (fun a => h a (ser_of w (g a))) l) <> Panics).
  { intros A g h l I K. apply all_built_calm. intros m J. apply in_map_iff in J. destruct J as (a & <- & J). apply K, IH, I, J. }
  assert (ALLS : forall {A} (g : A -> schema) l, (forall a, In a l -> In (g a) (children sc)) -> all_built (map (fun a => ser_of w (g a)) l) <> Panics).
  { intros A g l I. apply all_built_calm. intros m J. apply in_map_iff in J. destruct J as (a & <- & J). apply IH, I, J. }
  destruct sc; cbn [ser_of no_panic children] in *; try discriminate; try (apply bbind_calm; [apply IH; cbn; auto|discriminate]); try (apply IH; cbn; now auto).
  - now destruct expected.
  - apply bbind_calm; [|discriminate]. destruct item; [apply IH; now left|discriminate].
  - destruct (all_built (map (ser_of w) items)) as [l| |] eqn:Q; cbn [bbind]; [|discriminate|exfalso; revert Q; now apply (ALLS _ (fun a => a))].
    destruct (tn_variadic c) as [k|]; [|discriminate]. apply all_built_forall, forall2_len in Q. rewrite map_length in Q. specialize (P k eq_refl).
    destruct (PeanoNat.Nat.leb_spec (length l) k); [lia|discriminate].
  - apply bbind_calm; [apply IH; cbn; auto|]. intros. apply bbind_calm; [apply IH; cbn; auto|discriminate].
  - destruct steps as [|a l]; [contradiction|]. destruct (@exists_last _ (a :: l)) as (l' & sc & Q); [discriminate|]. rewrite Q in *. rewrite map_app. cbn [map]. rewrite last_last.
    apply IH. apply in_or_app. right. now left.
  - apply bbind_calm; [apply IH; cbn; auto|]. intros. apply bbind_calm; [apply IH; cbn; auto|discriminate].
  - apply bbind_calm; [apply ALLS; intros a I; now apply in_map|]. intros [|s [|s' l]]; discriminate.
  - apply bbind_calm; [apply ALLS; intros a I; now apply in_map|]. discriminate.
  - apply bbind_calm; [apply extras_calm; intros s Q; destruct extras as [sc|]; [|discriminate]; injection Q as <-; apply IH; apply in_or_app; right; now left|].
    intros. apply bbind_calm; [|discriminate]. apply (ALL _ snd (fun f => field_of w true (fi_name (fst f)))); [intros b I; apply in_or_app; left; now apply in_map|intros; now apply field_calm].
  - apply bbind_calm; [apply extras_calm; intros s Q; destruct extras as [sc|]; [|discriminate]; injection Q as <-; apply IH; apply in_or_app; right; now left|].
    intros. apply bbind_calm; [|discriminate]. apply (ALL _ snd (fun f => field_of w (fi_required (fst f)) (fi_name (fst f)))); [intros b I; apply in_or_app; left; now apply in_map|intros; now apply field_calm].
  - apply bbind_calm; [|discriminate]. apply all_built_calm. intros m J. apply in_flat_map in J. destruct J as (f & I & J). destruct (dn_init_only (fst f)); [contradiction|].
    destruct J as [<-|[]]. apply field_calm, IH. apply in_or_app. left. now apply (in_map snd).
Qed.
Print Assumptions C85_panics_only.
(** Both cases do panic. *)
Example C85_ex_panics : forall w, ser_of w (SChain []) = Panics /\
  ser_of w (STuple {| tn_strict := false; tn_variadic := Some 1; tn_min := None; tn_max := None; tn_fail_fast := false |} [xint]) = Panics.
Proof. now intros w. Qed.

(** ** Non-vacuity *)
Definition ser_env (defs : nat -> option SerBase.ser) : SerBase.env :=
  {| SerBase.e_class := fun _ => {| SerBase.ci_ser := None; SerBase.ci_dataclass := None; SerBase.ci_enum := false |}; SerBase.e_sub := N.eqb; SerBase.e_def := defs;
     SerBase.e_str := fun _ => None; SerBase.e_hash := fun _ => true; SerBase.e_prop := fun _ _ => None; SerBase.e_ryu := fun _ => lit "1.5"; SerBase.e_stack := 5 |}.
Definition ex_conf : SerBase.config := {| SerBase.c_inf_nan := SerBase.INull; SerBase.c_bytes := MUtf8 |}.
Definition ex_ser_opts : Ser.options :=
  {| Ser.o_by_alias := None; Ser.o_exclude_unset := false; Ser.o_exclude_defaults := false; Ser.o_exclude_none := false; Ser.o_round_trip := false;
     Ser.o_warnings := Ser.WWarn; Ser.o_fallback := None; Ser.o_as_any := false; Ser.o_include := None; Ser.o_exclude := None |}.
Definition ex_written (model_extra td_extra : bool) : written :=
  {| w_float := SerBase.INull; w_bytes := MUtf8; w_alias := fun _ => None; w_hidden := fun _ => false; w_by_alias := None;
     w_model_extra := fun _ => model_extra; w_td_extra := fun _ => td_extra; w_str := fun _ => lit "?"; w_retry := fun _ => true |}.

(** A recursive model: a value and a list of models again, the list being empty by
    default. *)
Definition m85 : model_cfg := {| mo_cls := 5; mo_origin := None; mo_revalidate := RAlways; mo_root := false; mo_custom_init := None; mo_post_init := None |}.
Definition kids : schema := SDefault (DValue (PList [])) OnRaise false (SList xcoll (Some (SRef 0))).
Definition family : schema := SModel m85 (SModelFields (xinfos ExtraIgnore) [xfield (lit "value") true xint; xfield (lit "children") false kids] None None).
Definition family_defs (k : nat) : option schema := match k with 0 => Some family | _ => None end.
Definition w85 : written := ex_written false false.
Lemma kids_steady : steady ex_env family_defs false w85 false kids.
Proof.
  apply StDefault; [apply StList, StRef|]. intros _ v Q. cbn in Q. subst v. apply CfList; [split; intros m M; discriminate M|intros sc x _ []].
Qed.
Lemma family_steady : steady ex_env family_defs false w85 false family.
Proof.
  apply StModel; [reflexivity|split; try reflexivity; intros; reflexivity|]. apply SfFields; [|repeat constructor; cbn; intuition discriminate|discriminate].
  intros f sc [[= <- <-]|[[= <- <-]|[]]]; [apply StInt|exact kids_steady].
Qed.
Definition family_ser : SerBase.ser := match ser_of w85 family with Built s => s | _ => SerBase.SerAny end.
Definition family_env : SerBase.env := ser_env (fun k => match k with 0 => Some family_ser | _ => None end).
Lemma family_both : both_defined ex_env family_defs false w85 false family_env.
Proof. intros [|k] d; cbn; [|discriminate]. intros [= <-]. split; [exact family_steady|]. now exists family_ser. Qed.
Lemma family_proper : holds_of proper family_defs family.
Proof.
  assert (T : everywhere proper family).
  { repeat (constructor; [cbn; try discriminate; try exact I; try (split; intros; discriminate); intros; discriminate|cbn; intros ? J; repeat destruct J as [<-|J]; try destruct J]). }
  split; [exact T|]. intros [|k] d; cbn; [|discriminate]. intros [= <-]. exact T.
Qed.
Definition person (v : Z) (kids : list pyval) : pyval :=
  model_inst 5 (PDict [(PStr (lit "value"), PInt v); (PStr (lit "children"), PList kids)]) PNone (PSet [PStr (lit "value"); PStr (lit "children")]).
Definition family_input : input :=
  IPy (PDict [(PStr (lit "value"), PStr (lit "1")); (PStr (lit "children"), PList [PDict [(PStr (lit "value"), PInt 2); (PStr (lit "children"), PList [])]])]).
Example C85_ex_run : fst (run ex_env family_defs 9 family family_input (call_state ITPython ex_opts)) = VOk (person 1 [person 2 []]).
Proof. vm_compute. reflexivity. Qed.
Example C85_ex_python : Ser.to_python family_env family_ser ex_conf false ex_ser_opts (person 1 [person 2 []]) =
  Ser.Returned (PDict [(PStr (lit "value"), PInt 1); (PStr (lit "children"), PList [PDict [(PStr (lit "value"), PInt 2); (PStr (lit "children"), PList [])]])]) [].
Proof. lazy. reflexivity. Qed.
Lemma person_tidy v kids : (forall k, In k kids -> tidy k) -> tidy (person v kids).
Proof.
  intros H. unfold person, model_inst. constructor. intros n u [[= <- <-]|[[= <- <-]|[[= <- <-]|[]]]].
  - constructor. intros k u [[= <- <-]|[[= <- <-]|[]]]; split; constructor; exact H.
  - constructor.
  - constructor. intros x [<-|[<-|[]]]; constructor.
Qed.
(** The theorem at the example, for all options. *)
Example C85_ex_all_options : forall c o, Ser.o_as_any o = false ->
  forall r shown, Ser.to_json family_env family_ser c o (person 1 [person 2 []]) = Ser.Returned r shown -> shown = [].
Proof.
  intros c o NA. refine (proj2 (C85_no_warnings ex_env family_defs 9 family family_input (call_state ITPython ex_opts) (person 1 [person 2 []])
    (snd (run ex_env family_defs 9 family family_input (call_state ITPython ex_opts))) w85 false family_env family_ser family_proper _ family_steady family_both eq_refl _ _ c o NA)).
  - rewrite <- C85_ex_run. apply surjective_pairing.
  - apply person_tidy. intros k [<-|[]]. apply person_tidy. intros k [].
  - discriminate.
Qed.

(** ** Where the hypotheses are needed *)
(** Validation of [i] with [sc], then serialization of the value in Python mode by the
    serializer of [sc]. *)
Definition there_and_back (w : written) (sc : schema) (i : input) : option (pyval * Ser.result pyval) :=
  match fst (run ex_env (fun _ => None) 9 sc i (call_state ITPython ex_opts)), ser_of w sc with
  | VOk v, Built s => Some (v, Ser.to_python (ser_env (fun _ => None)) s ex_conf false ex_ser_opts v)
  | _, _ => None
  end.
Definition warns (w : written) (sc : schema) (i : input) : Prop :=
  exists v r shown, there_and_back w sc i = Some (v, Ser.Returned r shown) /\ shown <> [].
Ltac warned := do 3 eexists; split; [lazy; reflexivity|discriminate].

(** C85, against a reading of the claim without conditions: a lax-or-strict schema is
    serialized with its strict schema, so what only the lax one gives is a surprise. *)
Theorem C85_lax_or_strict_refuted : exists l t i, steady ex_env (fun _ => None) false w85 false l /\ steady ex_env (fun _ => None) false w85 false t /\
  warns w85 (SLaxOrStrict false l t) i.
Proof.
  exists xstr, xint, (IPy (PStr (lit "a"))). split; [constructor|]. split; [constructor|]. warned.
Qed.
Print Assumptions C85_lax_or_strict_refuted.
(** A function after validation may return what it likes. *)
Theorem C85_after_refuted : exists f sc i, steady ex_env (fun _ => None) false w85 false sc /\ warns w85 (SAfter f None sc) i.
Proof. exists (fun _ _ => inl (PStr (lit "a"))), xint, (IPy (PInt 1)). split; [constructor|]. warned. Qed.
Print Assumptions C85_after_refuted.
(** A default value is not validated unless asked for. *)
Theorem C85_default_refuted : exists d sc i, steady ex_env (fun _ => None) false w85 false sc /\
  warns w85 (STypedDict (xinfos ExtraForbid) [xfield (lit "a") false (SDefault (DValue d) OnRaise false sc)] None) i.
Proof. exists (PStr (lit "x")), xint, (IPy (PDict [])). split; [constructor|]. warned. Qed.
Print Assumptions C85_default_refuted.
(** An item of a tuple that is left out moves the items behind it to serializers that are
    not theirs. *)
Theorem C85_omitted_item_refuted : exists items i, (forall sc, In sc items -> steady ex_env (fun _ => None) false w85 false sc) /\
  warns w85 (STuple {| tn_strict := false; tn_variadic := None; tn_min := None; tn_max := None; tn_fail_fast := false |} items) i.
Proof.
  exists [SDefault DNone OnOmit true xint; xstr], (IPy (PTuple [PStr (lit "a"); PStr (lit "b")])). split.
  - intros sc [<-|[<-|[]]]; [apply StDefault; [constructor|discriminate]|constructor].
  - warned.
Qed.
Print Assumptions C85_omitted_item_refuted.
(** Instances of the class pass unseen unless revalidation is asked for. *)
Definition m85_never : model_cfg := {| mo_cls := 5; mo_origin := None; mo_revalidate := RNever; mo_root := false; mo_custom_init := None; mo_post_init := None |}.
Theorem C85_instance_refuted : exists i, warns w85 (SModel m85_never (SModelFields (xinfos ExtraIgnore) [xfield (lit "a") true xint] None None)) i.
Proof. exists (IPy (model_inst 5 (PDict [(PStr (lit "a"), PStr (lit "x"))]) PNone (PSet []))). warned. Qed.
Print Assumptions C85_instance_refuted.
(** The model's own schema and that of its fields are asked separately whether additional
    items are allowed: if they differ, the serializer of the fields does not get what it
    expects, in whichever way they differ. *)
Theorem C85_extra_behavior_refuted : forall b, exists i,
  warns (ex_written b false) (SModel m85 (SModelFields (xinfos (if b then ExtraIgnore else ExtraAllow)) [xfield (lit "a") true xint] None None)) i.
Proof. intros b. exists (IPy (PDict [(PStr (lit "a"), PInt 1)])). destruct b; warned. Qed.
Print Assumptions C85_extra_behavior_refuted.
(** An additional item of a typed dict may have the name of a field that is read by its
    alias, and is then written as that field. *)
Definition aliased : finfo * schema :=
  ({| fi_name := lit "a"; fi_keys := {| kc_by_name := Simple (path_from_str (lit "a")); kc_by_alias := Some (Simple (path_from_str (lit "b"))); kc_by_alias_then_name := None |};
      fi_frozen := false; fi_required := false |}, xint).
Theorem C85_aliased_extra_refuted : exists i, warns (ex_written false true) (STypedDict (xinfos ExtraAllow) [aliased] None) i.
Proof. exists (IPy (PDict [(PStr (lit "a"), PStr (lit "x"))])). warned. Qed.
Print Assumptions C85_aliased_extra_refuted.

(** C85, against the reading that no warning means nothing is lost: the validator of a
    typed dict looks at the config of its own schema, the serializer at the config around
    it; where only the first allows additional items, they are validated and then left out
    without a warning. *)
Theorem C85_silent_loss_refuted : exists sc i v r, steady ex_env (fun _ => None) false w85 false sc /\
  there_and_back w85 sc i = Some (v, Ser.Returned r []) /\
  exists k x, (exists d, v = PDict d /\ In (k, x) d) /\ (exists d, r = PDict d /\ ~ In k (map fst d)).
Proof.
  exists (STypedDict (xinfos ExtraAllow) [xfield (lit "a") true xint] None), (IPy (PDict [(PStr (lit "a"), PInt 1); (PStr (lit "b"), PInt 2)])),
    (PDict [(PStr (lit "a"), PInt 1); (PStr (lit "b"), PInt 2)]), (PDict [(PStr (lit "a"), PInt 1)]).
  split; [|split].
  - apply StTypedDict; try (intros; discriminate).
    + intros f sc [[= <- <-]|[]]. constructor.
    + repeat constructor. now cbn.
    + intros _. split; [reflexivity|]. intros f sc [[= <- <-]|[]]. reflexivity.
  - lazy. reflexivity.
  - exists (PStr (lit "b")), (PInt 2). split; eexists; (split; [reflexivity|]); [right; now left|]. intros [Q|[]]. discriminate Q.
Qed.
Print Assumptions C85_silent_loss_refuted.
