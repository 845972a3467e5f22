(** C51: what is serialized can be validated, and gives an equal value. *)
From Coq Require Import List NArith ZArith Bool Permutation Lia.
From Verif Require Import Base Utf8 Float64 IntParse Numbers BytesCodec BytesCodecSpec Values VState LookupKey Collections Child Inputs Scalars Literal Wrappers Union Tuple ModelFields TypedDict Assign Classes Interp InterpSpec InterpExamples ConformSpec ConformProps StableSpec RoundTripSpec RoundTripForward.
From Verif Require NumbersSpec Filter SerBase Ser JsonText JsonTextSpec JsonTextProps.
From Verif Require Import RoundTripSer RoundTripOut RoundTripProofs RoundTripProofs3 RoundTripProofs4.
Import ListNotations.
Open Scope nat_scope.

(** The options of serialization leave nothing out and do not replace the serializer of
    the schema; those of validation do not allow incomplete input. *)
Definition everything (o : Ser.options) : Prop :=
  Ser.o_include o = None /\ Ser.o_exclude o = None /\ Ser.o_exclude_unset o = false /\ Ser.o_exclude_defaults o = false /\
  Ser.o_exclude_none o = false /\ Ser.o_as_any o = false.

Lemma start_neat c json o : everything o -> neat json (Ser.o_by_alias o) (Ser.o_round_trip o) (Ser.start c json o).
Proof. intros (_ & _ & U & D & N & A). constructor; try assumption; try reflexivity. cbn. now rewrite A. Qed.
Lemma good_result A w (m : SerBase.M A) a ws : Ser.final_check w m = Ser.Returned a ws -> snd m = SerBase.Good a.
Proof. unfold Ser.final_check. destruct (snd m) as [b|]; [|discriminate]. destruct w; [|intros [= -> _]; reflexivity|destruct (is_nil _); [|discriminate]]; intros [= -> _]; reflexivity. Qed.

(** For every schema of the fragment with its serializer ([pair]), every valid value that
    can be written and all options of the two calls that agree on the aliases: the JSON
    written is accepted, strictly or not, and the result equals the value. *)
Theorem C51_json_round_trip : forall E defs SE sc se c o oc fuel v j shown,
  pair defs E (Ser.o_by_alias o) (Ser.o_round_trip o) (op_by_alias oc) (op_by_name oc) true sc se ->
  definitions_pair defs E (Ser.o_by_alias o) (Ser.o_round_trip o) (op_by_alias oc) (op_by_name oc) true (SerBase.e_def SE) ->
  plain (e_max_digits E) v -> conforms (unseen E) defs false sc v ->
  everything o -> op_partial oc = PartialOff -> 0 < e_wd_fuel E -> Ser.ser_limit < fuel ->
  Ser.to_json SE se c o v = Ser.Returned j shown ->
  exists w, fst (run E defs fuel sc (IJson j) (call_state ITJson oc)) = VOk w /\ equal v w.
Proof.
  intros E defs SE sc se c o oc fuel v j shown P D PL C EV PO WD FU T. apply good_result in T. pose proof EV as (I1 & I2 & _). rewrite I1, I2 in T.
  assert (O : out true (Ser.build SE (Ser.levels SE Ser.ser_limit) se) v (Ser.start c true o) (IJson j)) by (exists j; split; [reflexivity|exact T]).
  destruct (reads_back E defs SE _ _ _ _ true D WD Ser.ser_limit sc se P v _ _ PL C (start_neat c true o EV) O) as (_ & _ & RB).
  destruct (RB fuel 0 FU ltac:(discriminate) (call_state ITJson oc)) as (w & s & Q & EQ & _); [now constructor|].
  exists w. split; [|exact EQ]. unfold run. now rewrite Q.
Qed.
Print Assumptions C51_json_round_trip.

(** The same without JSON in between. *)
Theorem C51_python_round_trip : forall E defs SE sc se c o oc fuel v u shown,
  pair defs E (Ser.o_by_alias o) (Ser.o_round_trip o) (op_by_alias oc) (op_by_name oc) false sc se ->
  definitions_pair defs E (Ser.o_by_alias o) (Ser.o_round_trip o) (op_by_alias oc) (op_by_name oc) false (SerBase.e_def SE) ->
  plain (e_max_digits E) v -> conforms (unseen E) defs false sc v ->
  everything o -> op_partial oc = PartialOff -> 0 < e_wd_fuel E -> Ser.ser_limit < fuel ->
  Ser.to_python SE se c false o v = Ser.Returned u shown ->
  exists w, fst (run E defs fuel sc (IPy u) (call_state ITPython oc)) = VOk w /\ equal v w.
Proof.
  intros E defs SE sc se c o oc fuel v j shown P D PL C EV PO WD FU T. apply good_result in T. pose proof EV as (I1 & I2 & _). rewrite I1, I2 in T.
  assert (O : out false (Ser.build SE (Ser.levels SE Ser.ser_limit) se) v (Ser.start c false o) (IPy j)) by (exists j; split; [reflexivity|exact T]).
  destruct (reads_back E defs SE _ _ _ _ false D WD Ser.ser_limit sc se P v _ _ PL C (start_neat c false o EV) O) as (_ & _ & RB).
  destruct (RB fuel 0 FU ltac:(intros _; apply le_n) (call_state ITPython oc)) as (w & s & Q & EQ & _); [now constructor|].
  exists w. split; [|exact EQ]. unfold run. now rewrite Q.
Qed.
Print Assumptions C51_python_round_trip.

(** The text that is written: it denotes exactly one JSON value, and that value is
    accepted. *)
Theorem C51_text_round_trip : forall E defs SE sc se c o oc fuel v j shown indent reads,
  pair defs E (Ser.o_by_alias o) (Ser.o_round_trip o) (op_by_alias oc) (op_by_name oc) true sc se ->
  definitions_pair defs E (Ser.o_by_alias o) (Ser.o_round_trip o) (op_by_alias oc) (op_by_name oc) true (SerBase.e_def SE) ->
  plain (e_max_digits E) v -> conforms (unseen E) defs false sc v ->
  everything o -> op_partial oc = PartialOff -> 0 < e_wd_fuel E -> Ser.ser_limit < fuel ->
  Ser.to_json SE se c o v = Ser.Returned j shown -> JsonTextSpec.writable reads (SerBase.e_ryu SE) j ->
  exists bs text, Ser.to_json_bytes SE se c o indent v = Some bs /\ from_utf8 bs = Some text /\ JsonTextSpec.json_text reads j text /\
    forall j', JsonTextSpec.json_text reads j' text -> exists w, fst (run E defs fuel sc (IJson j') (call_state ITJson oc)) = VOk w /\ equal v w.
Proof.
  intros E defs SE sc se c o oc fuel v j shown indent reads P D PL C EV PO WD FU T W.
  destruct (JsonTextProps.C52_parses (SerBase.e_ryu SE) reads indent j W) as (bs & text & B & U & DE & UN).
  exists bs, text. split; [unfold Ser.to_json_bytes; now rewrite T|]. split; [exact U|]. split; [exact DE|].
  intros j' J. rewrite (UN j' J). eapply C51_json_round_trip; eauto.
Qed.
Print Assumptions C51_text_round_trip.

(** A value that validation produced, of input holding no instance of a model class. *)
Theorem C51_validated_round_trip : forall E defs SE sc se c o oc fuel fuel0 i s v s' j shown,
  pair defs E (Ser.o_by_alias o) (Ser.o_round_trip o) (op_by_alias oc) (op_by_name oc) true sc se ->
  definitions_pair defs E (Ser.o_by_alias o) (Ser.o_round_trip o) (op_by_alias oc) (op_by_name oc) true (SerBase.e_def SE) ->
  holds_of proper defs sc -> from_strings i = false -> run (unseen E) defs fuel0 sc i s = (VOk v, s') -> plain (e_max_digits E) v ->
  everything o -> op_partial oc = PartialOff -> 0 < e_wd_fuel E -> Ser.ser_limit < fuel ->
  Ser.to_json SE se c o v = Ser.Returned j shown ->
  exists w, fst (run E defs fuel sc (IJson j) (call_state ITJson oc)) = VOk w /\ equal v w.
Proof.
  intros E defs SE sc se c o oc fuel fuel0 i s v s' j shown P D HO FS R PL EV PO WD FU T. apply C29_result_conforms in R; [|exact HO]. rewrite FS in R.
  eapply C51_json_round_trip; eauto.
Qed.
Print Assumptions C51_validated_round_trip.

(** ** An example *)
Definition rt_ser_env (def : nat -> option SerBase.ser) : SerBase.env :=
  {| SerBase.e_class := fun _ => {| SerBase.ci_ser := None; SerBase.ci_dataclass := None; SerBase.ci_enum := false |}; SerBase.e_sub := N.eqb; SerBase.e_def := def;
     SerBase.e_str := fun _ => None; SerBase.e_hash := fun _ => true; SerBase.e_prop := fun _ _ => None; SerBase.e_ryu := fun _ => lit "1.5"; SerBase.e_stack := 5 |}.
Definition rt_opts (by_alias : option bool) : Ser.options :=
  {| Ser.o_by_alias := by_alias; Ser.o_exclude_unset := false; Ser.o_exclude_defaults := false; Ser.o_exclude_none := false; Ser.o_round_trip := false;
     Ser.o_warnings := Ser.WWarn; Ser.o_fallback := None; Ser.o_as_any := false; Ser.o_include := None; Ser.o_exclude := None |}.
Definition rt_conf : SerBase.config := {| SerBase.c_inf_nan := SerBase.INull; SerBase.c_bytes := MUtf8 |}.
Definition rt_field (alias : option str) (s : SerBase.ser) : SerBase.field SerBase.ser :=
  {| SerBase.f_alias := alias; SerBase.f_ser := Some s; SerBase.f_required := true; SerBase.f_by_alias := None |}.

(** class Node: value (alias val): int; labels: set of str or None = None;
    weights: dict of int to a pair of float and bytes; children: list of Node. *)
Definition rt_float : schema := SFloat false {| fc_multiple_of := None; fc_le := None; fc_lt := None; fc_ge := None; fc_gt := None; fc_allow_inf_nan := false |}.
Definition rt_bytes : schema := SBytes {| bc_strict := false; bc_min := None; bc_max := None; bc_mode := MHex |}.
Definition rt_node : schema :=
  SModel {| mo_cls := 5; mo_origin := None; mo_revalidate := RNever; mo_root := false; mo_custom_init := None; mo_post_init := None |}
    (SModelFields (xinfos ExtraForbid)
       [({| fi_name := lit "value"; fi_keys := {| kc_by_name := Simple (path_from_str (lit "value")); kc_by_alias := Some (Simple (path_from_str (lit "val"))); kc_by_alias_then_name := None |};
            fi_frozen := false; fi_required := true |}, SInt true None);
        xfield (lit "labels") false (SDefault (DValue PNone) OnRaise false (SNullable (SSet false xcoll xstr)));
        xfield (lit "weights") true (SDict xcoll xint (STuple {| tn_strict := false; tn_variadic := None; tn_min := None; tn_max := None; tn_fail_fast := false |} [rt_float; rt_bytes]));
        xfield (lit "children") true (SList xcoll (Some (SRef 0)))] None None).
Definition rt_node_ser : SerBase.ser :=
  SerBase.SerModel 5 (SerBase.SerFields SerBase.SimpleDict
    [(lit "value", rt_field (Some (lit "val")) SerBase.SerInt);
     (lit "labels", rt_field None (SerBase.SerDefault (Some PNone) (SerBase.SerNullable (SerBase.SerSet SerBase.SerStr))));
     (lit "weights", rt_field None (SerBase.SerDict Filter.any_filter SerBase.SerInt (SerBase.SerTuple Filter.any_filter [SerBase.SerFloat SerBase.INull; SerBase.SerBytes MHex] None)));
     (lit "children", rt_field None (SerBase.SerList Filter.any_filter (SerBase.SerDef 0 false)))] None []) false false.
Definition rt_defs (k : nat) : option schema := match k with 0 => Some rt_node | _ => None end.
Definition rt_ser_defs (k : nat) : option SerBase.ser := match k with 0 => Some rt_node_ser | _ => None end.
Definition rt_value (n : Z) (labels : pyval) (f : Z) (children : list pyval) (set_ : list str) : pyval :=
  model_inst 5 (PDict [(PStr (lit "value"), PInt n); (PStr (lit "labels"), labels); (PStr (lit "weights"), PDict [(PInt (-7), PTuple [PFloat (f_of_Z f); PBytes [0; 255]%N])]);
                       (PStr (lit "children"), PList children)]) PNone (PSet (map PStr set_)).
Definition rt_tree : pyval := rt_value 1 PNone 5 [rt_value 2 (PSet [PStr (lit "a"); PStr (lit "b")]) 6 [] [lit "value"; lit "labels"; lit "weights"; lit "children"]] [lit "value"; lit "weights"; lit "children"].
Definition rt_input : json :=
  JObj [(lit "val", JInt 1); (lit "weights", JObj [(lit " -7 ", JArr [JInt 5; JStr (lit "00FF")])]);
        (lit "children", JArr [JObj [(lit "weights", JObj [(lit "-7", JArr [JFloat (f_of_Z 6); JStr (lit "00ff")])]); (lit "children", JArr []);
                                     (lit "labels", JArr [JStr (lit "a"); JStr (lit "b"); JStr (lit "a")]); (lit "val", JInt 2)]])].

Example C51_pair : forall js, pair rt_defs ex_env (Some true) false None None js rt_node rt_node_ser.
Proof.
  intros js. apply PaModel; try reflexivity; try discriminate; [|now left].
  split; [cbn; repeat constructor; cbn; intros J; repeat destruct J as [J|J]; try discriminate J; destruct J|].
  exists (fun n => if str_eqb n (lit "value") then lit "val" else n).
  split; [cbn; repeat constructor; cbn; intros J; repeat destruct J as [J|J]; try discriminate J; destruct J|].
  intros f sc J. repeat (destruct J as [J|J]; [injection J as <- <-|]); try destruct J.
  - eexists _, _, _. split; [reflexivity|]. split; [reflexivity|]. split; [constructor; intros ? ? [=]|]. split; [reflexivity|]. split; [reflexivity|]. split; [reflexivity|]. apply FiSimple.
  - eexists _, _, _. split; [reflexivity|]. split; [reflexivity|]. split; [|split; [reflexivity|]; split; [reflexivity|]; split; [reflexivity|]; apply FiSimple].
    apply PaDefault; [|discriminate|intros _ v V; cbn in V; subst v; constructor]. constructor; [|constructor; exact I]. constructor; [constructor; split; reflexivity|reflexivity].
  - eexists _, _, _. split; [reflexivity|]. split; [reflexivity|]. split; [|split; [reflexivity|]; split; [reflexivity|]; split; [reflexivity|]; apply FiSimple].
    constructor; [intros _; constructor; intros ? ? [=]|intros _; constructor; intros ? ? [=]|reflexivity|]. apply (PaTuple _ _ _ _ _ _ _ {| tn_strict := false; tn_variadic := None; tn_min := None; tn_max := None; tn_fail_fast := false |}); [|discriminate|now left].
    constructor; [constructor; [intros b B; cbn in B; repeat destruct B as [B|B]; discriminate B|now right]|]. constructor; [constructor; reflexivity|constructor].
  - eexists _, _, _. split; [reflexivity|]. split; [reflexivity|]. split; [|split; [reflexivity|]; split; [reflexivity|]; split; [reflexivity|]; apply FiSimple]. constructor. constructor.
Qed.
Example C51_definitions : forall js, definitions_pair rt_defs ex_env (Some true) false None None js rt_ser_defs.
Proof. intros js [|k]; [apply C51_pair|exact I]. Qed.
Example C51_written : Ser.to_json (rt_ser_env rt_ser_defs) rt_node_ser rt_conf (rt_opts (Some true)) rt_tree
  = Ser.Returned (JObj [(lit "val", JInt 1); (lit "labels", JNull); (lit "weights", JObj [(lit "-7", JArr [JFloat (f_of_Z 5); JStr (lit "00ff")])]);
      (lit "children", JArr [JObj [(lit "val", JInt 2); (lit "labels", JArr [JStr (lit "a"); JStr (lit "b")]);
          (lit "weights", JObj [(lit "-7", JArr [JFloat (f_of_Z 6); JStr (lit "00ff")])]); (lit "children", JArr [])]])]) [].
Proof. lazy. reflexivity. Qed.
Example C51_everything : everything (rt_opts (Some true)). Proof. repeat split. Qed.
Example C51_plain : plain (e_max_digits ex_env) rt_tree.
Proof.
  assert (G : forall n l f cs fs, plain 4300 (PInt n) -> plain 4300 l -> valid64 (f_of_Z f) = true -> (forall c, In c cs -> plain 4300 c) -> forallb (forallb scalar) fs = true -> plain 4300 (rt_value n l f cs fs)).
  { intros n l f cs fs N L F C FS. assert (T : forall s, forallb scalar s = true -> plain 4300 (PStr s)) by (intros; now constructor).
    constructor. intros a v J. repeat (destruct J as [J|J]; [injection J as <- <-|]); [| | |destruct J].
    - constructor. intros k v J. repeat (destruct J as [J|J]; [injection J as <- <-|]); try destruct J; (split; [now apply T|]); auto.
      + constructor. intros k v J. destruct J as [J|[]]. injection J as <- <-. split; [constructor; vm_compute; discriminate|].
        constructor. intros x J. repeat (destruct J as [<-|J]); try destruct J; [now constructor|]. constructor. repeat constructor.
      + now constructor.
    - constructor.
    - constructor. intros x J. apply in_map_iff in J. destruct J as (y & <- & J). apply T. revert J. apply forallb_forall. exact FS. }
  apply G; [constructor; vm_compute; discriminate|constructor|reflexivity| |reflexivity]. intros c [<-|[]].
  apply G; [constructor; vm_compute; discriminate| |reflexivity|intros ? []|reflexivity]. constructor. intros x J. repeat (destruct J as [<-|J]); try destruct J; now constructor.
Qed.


Example C51_validated : fst (run (unseen ex_env) rt_defs 300 rt_node (IJson rt_input) (call_state ITJson ex_opts)) = VOk rt_tree.
Proof. lazy. reflexivity. Qed.
Example C51_proper : holds_of proper rt_defs rt_node.
Proof.
  assert (T : everywhere proper rt_node).
  { repeat (constructor; [cbn; try discriminate; try exact I; try (split; intros; discriminate); intros; discriminate|cbn; intros ? J; repeat destruct J as [<-|J]; try destruct J]). }
  split; [exact T|]. intros [|k] d; cbn; [|discriminate]. intros [= <-]. exact T.
Qed.
Example C51_conforms : conforms (unseen ex_env) rt_defs false rt_node rt_tree.
Proof.
  pose proof C51_validated as R. destruct (run (unseen ex_env) rt_defs 300 rt_node (IJson rt_input) (call_state ITJson ex_opts)) as [r s'] eqn:Q. cbn in R. subst r.
  exact (C29_result_conforms _ _ _ _ _ _ _ _ C51_proper Q).
Qed.
(** Hence the value comes back; computed: only the record of the fields that were set
    differs, [labels] having been written. *)
Example C51_comes_back : exists w, fst (run ex_env rt_defs 256 rt_node (IJson (JObj [(lit "val", JInt 1); (lit "labels", JNull); (lit "weights", JObj [(lit "-7", JArr [JFloat (f_of_Z 5); JStr (lit "00ff")])]);
      (lit "children", JArr [JObj [(lit "val", JInt 2); (lit "labels", JArr [JStr (lit "a"); JStr (lit "b")]);
          (lit "weights", JObj [(lit "-7", JArr [JFloat (f_of_Z 6); JStr (lit "00ff")])]); (lit "children", JArr [])]])])) (call_state ITJson strict_opts)) = VOk w /\ equal rt_tree w /\ w <> rt_tree.
Proof.
  destruct (C51_json_round_trip ex_env rt_defs (rt_ser_env rt_ser_defs) rt_node rt_node_ser rt_conf (rt_opts (Some true)) strict_opts 256 rt_tree _ _
    (C51_pair true) (C51_definitions true) C51_plain C51_conforms C51_everything eq_refl ltac:(cbn; repeat constructor) ltac:(unfold Ser.ser_limit; lia) C51_written) as (w & R & Q).
  exists w. split; [exact R|]. split; [exact Q|]. intros ->. revert R. lazy. discriminate.
Qed.

(** ** What does not come back *)
Definition trip (defs : nat -> option schema) (sc : schema) (se : SerBase.ser) (by_alias : option bool) (v : pyval) : option (vres pyval) :=
  match Ser.to_json (rt_ser_env (fun _ => None)) se rt_conf (rt_opts by_alias) v with
  | Ser.Returned j _ => Some (fst (run ex_env defs 256 sc (IJson j) (call_state ITJson ex_opts)))
  | Ser.Raised => None
  end.
Definition fails_on_return sc se v : Prop :=
  conforms (unseen ex_env) (fun _ => None) false sc v /\ exists e, trip (fun _ => None) sc se None v = Some (VErr e).
Definition changed_on_return sc se v : Prop :=
  conforms (unseen ex_env) (fun _ => None) false sc v /\ exists w, trip (fun _ => None) sc se None v = Some (VOk w) /\ ~ equal v w.

(** ser_json_inf_nan='null', the default: NaN is written as null. *)
Definition any_float : schema := SFloat false {| fc_multiple_of := None; fc_le := None; fc_lt := None; fc_ge := None; fc_gt := None; fc_allow_inf_nan := true |}.
Theorem C51_nan_refuted : exists m v, fails_on_return any_float (SerBase.SerFloat m) v.
Proof. exists SerBase.INull, (PFloat S754_nan). split; [constructor; intros _; repeat split; try (now left); intros ? [=]|]. eexists. lazy. reflexivity. Qed.
Print Assumptions C51_nan_refuted.

(** ser_json_bytes='base64' with val_json_bytes='utf8': other bytes come back. *)
Definition utf8_bytes : schema := SBytes {| bc_strict := false; bc_min := None; bc_max := None; bc_mode := MUtf8 |}.
Theorem C51_bytes_mode_refuted : exists m v, changed_on_return utf8_bytes (SerBase.SerBytes m) v.
Proof.
  exists MBase64, (PBytes [97]%N). split; [econstructor; [reflexivity|split; discriminate]|]. eexists. split; [lazy; reflexivity|]. intros H; inversion H.
Qed.
Print Assumptions C51_bytes_mode_refuted.

(** A root model of None inside an optional field: null means that the field is None. *)
Definition root_opt : schema :=
  SNullable (SModel {| mo_cls := 6; mo_origin := None; mo_revalidate := RNever; mo_root := true; mo_custom_init := None; mo_post_init := None |} (SNullable xint)).
Theorem C51_root_none_refuted : exists v, changed_on_return root_opt (SerBase.SerNullable (SerBase.SerModel 6 (SerBase.SerNullable SerBase.SerInt) false true)) v.
Proof.
  exists (root_inst 6 PNone (PSet [])). split; [|eexists; split; [lazy; reflexivity|intros H; inversion H]].
  apply CfNullSome. eapply CfModelRoot; [reflexivity|apply CfNullNone|reflexivity].
Qed.
Print Assumptions C51_root_none_refuted.

(** dict[None, int]: the key None is written "None", which is not None. *)
Theorem C51_none_key_refuted : exists v, fails_on_return (SDict xcoll SNone xint) (SerBase.SerDict Filter.any_filter SerBase.SerNone SerBase.SerInt) v.
Proof.
  exists (PDict [(PNone, PInt 1)]). split; [|eexists; lazy; reflexivity].
  constructor; [split; discriminate| |repeat constructor]. intros a b [J|[]]. injection J as <- <-. split; [reflexivity|]. split; [constructor|]. constructor. intros ? [=].
Qed.
Print Assumptions C51_none_key_refuted.

(** A tuple as a key is written with commas; no key is read as a tuple. *)
Definition pair_schema : schema := STuple {| tn_strict := false; tn_variadic := None; tn_min := None; tn_max := None; tn_fail_fast := false |} [xint; xint].
Theorem C51_tuple_key_refuted : exists v, fails_on_return (SDict xcoll pair_schema xint) (SerBase.SerDict Filter.any_filter (SerBase.SerTuple Filter.any_filter [SerBase.SerInt; SerBase.SerInt] None) SerBase.SerInt) v.
Proof.
  exists (PDict [(PTuple [PInt 1; PInt 2], PInt 3)]). split; [|eexists; lazy; reflexivity].
  constructor; [split; discriminate| |repeat constructor]. intros a b [J|[]]. injection J as <- <-. split; [reflexivity|]. split; [|constructor; intros ? [=]].
  apply (CfTuple _ _ _ _ _ [(xint, Some (PInt 1)); (xint, Some (PInt 2))] 0); [reflexivity| |intros sc [J|[J|[]]]; discriminate|discriminate|discriminate].
  intros sc v J. repeat (destruct J as [J|J]; [injection J as <- <-; constructor; intros ? [=]|]). destruct J.
Qed.
Print Assumptions C51_tuple_key_refuted.

(** str | bytes: bytes come back as text. *)
Theorem C51_union_refuted : exists v, changed_on_return (SUnion UnionSmart None [(xstr, lit "str"); (utf8_bytes, lit "bytes")]) (SerBase.SerUnion [SerBase.SerStr; SerBase.SerBytes MUtf8]) v.
Proof.
  exists (PBytes [97]%N). split; [eapply CfUnion; [right; left; reflexivity|]; econstructor; [reflexivity|split; discriminate]|]. eexists. split; [lazy; reflexivity|]. intros H; inversion H.
Qed.
Print Assumptions C51_union_refuted.

(** Any: a tuple comes back as a list. *)
Theorem C51_any_refuted : exists v, changed_on_return SAny SerBase.SerAny v.
Proof. exists (PTuple [PInt 1]). split; [constructor|]. eexists. split; [lazy; reflexivity|]. intros H; inversion H. Qed.
Print Assumptions C51_any_refuted.

(** A key that is not valid Unicode is replaced without a word. *)
Theorem C51_surrogate_key_refuted : exists v, changed_on_return (SDict xcoll xstr xint) (SerBase.SerDict Filter.any_filter SerBase.SerStr SerBase.SerInt) v.
Proof.
  exists (PDict [(PStr [55296]%N, PInt 1)]). split.
  - constructor; [split; discriminate| |repeat constructor]. intros a b [J|[]]. injection J as <- <-. split; [reflexivity|]. split; [|constructor; intros ? [=]].
    apply (CfStr _ _ _ {| sc_strict := false; sc_coerce_numbers := false; sc_strip := false; sc_min := None; sc_max := None; sc_pattern := None; sc_to_lower := false; sc_to_upper := false |} [55296]%N). repeat split; discriminate.
  - eexists. split; [lazy; reflexivity|]. intros H. inversion H as [| | |? ? ? PE ME _| |]; subst. apply Permutation_length_1_inv in PE. subst. discriminate ME.
Qed.
Print Assumptions C51_surrogate_key_refuted.

(** A serialization alias that validation does not know. *)
Definition one_field : schema :=
  SModel {| mo_cls := 5; mo_origin := None; mo_revalidate := RNever; mo_root := false; mo_custom_init := None; mo_post_init := None |}
    (SModelFields (xinfos ExtraIgnore) [xfield (lit "x") true xint] None None).
Theorem C51_alias_refuted : exists v e, conforms (unseen ex_env) (fun _ => None) false one_field v /\
  trip (fun _ => None) one_field (SerBase.SerModel 5 (SerBase.SerFields SerBase.SimpleDict [(lit "x", rt_field (Some (lit "X")) SerBase.SerInt)] None []) false false) (Some true) v = Some (VErr e).
Proof.
  exists (model_inst 5 (PDict [(PStr (lit "x"), PInt 3)]) PNone (PSet [])). eexists. split; [|lazy; reflexivity].
  apply (CfModelBuilt _ _ _ _ _ (PDict [(PStr (lit "x"), PInt 3)]) PNone (PSet []) (PSet [])); [reflexivity| |reflexivity].
  constructor; [repeat constructor| | |reflexivity|discriminate|intros ? []].
  - intros k v [J|[]]. injection J as <- <-. eexists _, _. split; [left; reflexivity|]. split; [reflexivity|]. constructor. intros ? [=].
  - intros f sc [J|[]]. injection J as <- <-. left. now left.
Qed.
Print Assumptions C51_alias_refuted.
