(** C87: the options of a call. *)
From Coq Require Import List NArith ZArith Bool Lia.
From Verif Require Import Base Float64 IntParse Numbers BytesCodec Values VState LookupKey Collections Child Inputs Scalars Literal Wrappers Union TaggedUnion Tuple ModelFields TypedDict Assign Arguments Classes Interp InterpSpec InterpExamples SerOf Core CoreSpec CoreProps.
From Verif Require Import OptsSpec OptsProofs OptsCoreSpec OptsCoreProofs.
Import ListNotations.
Open Scope nat_scope.

(** C87: strict, from_attributes, by_alias and by_name of a call are a shorthand: the call
    gives what it would give if every schema inside, definitions included, said them
    itself, whatever it says otherwise. *)
Theorem C87_options_are_shorthand : forall E defs defs' fuel sc t o i, (forall k, defs' k = option_map (over o) (defs k)) -> holds_of (sayable o) defs sc ->
  fst (run E defs fuel sc i (call_state t o)) = fst (run E defs' fuel (over o sc) i (call_state t (unruled o))).
Proof.
  intros E defs defs' fuel sc t o i D H. destruct (run_comm o E defs defs' fuel sc D H i (call_state t o) eq_refl) as [R _].
  change (hush (call_state t o)) with (call_state t (unruled o)) in R. now rewrite R.
Qed.
Print Assumptions C87_options_are_shorthand.

(** C87: a call with options is a call without on the validator that was built with the
    options in its config and in the configs of all models, dataclasses and typed dicts
    inside, if no schema says otherwise itself.  Both can be built, or neither. *)
Theorem C87_options_are_config : forall name_of compile o g c, (forall s, name_of (over o s) = name_of s) -> (forall g' x, within g c g' x -> unopposed o x) ->
  match schema_validator name_of compile g c, schema_validator name_of compile (Some (with_options o g)) (configured o c) with
  | Built (s, defs), Built (s', defs') =>
      forall E fuel t i, fst (run E defs fuel s i (call_state t o)) = fst (run E defs' fuel s' i (call_state t (unruled o)))
  | SchemaError, SchemaError | Panics, Panics => True
  | _, _ => False
  end.
Proof.
  intros name_of compile o g c Nm N. pose proof (validator_configured o name_of compile Nm g c N) as V.
  destruct (schema_validator name_of compile g c) as [[s defs]| |]; [|now rewrite V|now rewrite V].
  destruct V as (H & defs' & V & D). rewrite V. intros E fuel t i. now apply C87_options_are_shorthand.
Qed.
Print Assumptions C87_options_are_config.

(** ** Cases *)
Definition o_strict : call_opts := {| op_strict := Some true; op_from_attributes := None; op_by_alias := None; op_by_name := None; op_partial := PartialOff |}.
Definition o_name : call_opts := {| op_strict := None; op_from_attributes := None; op_by_alias := Some false; op_by_name := Some true; op_partial := PartialOff |}.
Definition o_keys : key_collection := {| kc_by_name := Simple (path_from_str (lit "a")); kc_by_alias := Some (Simple (path_from_str (lit "b"))); kc_by_alias_then_name := None |}.
Definition o_dict : schema :=
  STypedDict {| fo_extra := ExtraIgnore; fo_strict := false; fo_from_attributes := false; fo_loc_by_alias := true; fo_by_alias := None; fo_by_name := None |}
    [({| fi_name := lit "a"; fi_keys := o_keys; fi_frozen := false; fi_required := true |}, SInt false None)] None.
Example C87_ex_dict : holds_of (sayable o_strict) (fun _ => None) o_dict /\
  fst (run ex_env (fun _ => None) 1 o_dict (IPy (PDict [(PStr (lit "b"), PStr (lit "1"))])) (call_state ITPython ex_opts)) = VOk (PDict [(PStr (lit "a"), PInt 1)]) /\
  (exists e, fst (run ex_env (fun _ => None) 1 o_dict (IPy (PDict [(PStr (lit "b"), PStr (lit "1"))])) (call_state ITPython o_strict)) = VErr e) /\
  fst (run ex_env (fun _ => None) 1 o_dict (IPy (PDict [(PStr (lit "a"), PStr (lit "1"))])) (call_state ITPython o_name)) = VOk (PDict [(PStr (lit "a"), PInt 1)]) /\
  over o_strict o_dict = STypedDict {| fo_extra := ExtraIgnore; fo_strict := true; fo_from_attributes := false; fo_loc_by_alias := true; fo_by_alias := None; fo_by_name := None |}
    [({| fi_name := lit "a"; fi_keys := o_keys; fi_frozen := false; fi_required := true |}, SInt true None)] None.
Proof.
  split; [|split; [|split; [|split]]].
  - split; [|discriminate]. constructor; [exact I|]. intros c [<-|[]]. constructor; [exact I|]. intros c [].
  - lazy. reflexivity.
  - eexists. lazy. reflexivity.
  - lazy. reflexivity.
  - reflexivity.
Qed.
(** A model of an integer in a list, and the config that makes it strict all through. *)
Definition o_core : core := KList x_lk (Some (KModel None x_mk (KModelFields (x_rk None) [(x_ek (lit "a") None, k_int None)] None None))).
Example C87_ex_config : (forall s, x_name (over o_strict s) = x_name s) /\ (forall g' x, within None o_core g' x -> unopposed o_strict x) /\
  exists s defs s' defs', x_validator None o_core = Built (s, defs) /\ x_validator (Some (with_options o_strict None)) (configured o_strict o_core) = Built (s', defs') /\ s <> s'.
Proof.
  split; [reflexivity|]. split.
  - intros g' x W. inversion W as [|? ? p ? ? I V]; subst; [now left|]. destruct I as [<-|[]]. cbn in V. inversion V as [|? ? p ? ? I V']; subst; [exact Logic.I|]. destruct I as [<-|[]].
    cbn in V'. inversion V' as [|? ? p ? ? I V2]; subst; [split; now left|]. destruct I as [<-|[]]. cbn in V2. inversion V2 as [|? ? p ? ? I V3]; subst; [now left|]. destruct I.
  - eexists _, _, _, _. split; [lazy; reflexivity|]. split; [lazy; reflexivity|]. discriminate.
Qed.

(** ** Against what one might expect *)

(** C87, against the reading that options hold for the whole call: by_alias and by_name are
    forgotten below a wrap function (generator.rs:301-345). *)
Definition o_wrap : schema := SWrap (fun v _ => WCall v None (fun r => match r with inl w => WReturn w | inr e => WRaise e end)) None o_dict.
Theorem C87_wrap_refuted : exists sc i v e, sc = SWrap (fun v _ => WCall v None (fun r => match r with inl w => WReturn w | inr e => WRaise e end)) None o_dict /\
  fst (run ex_env (fun _ => None) 1 o_dict i (call_state ITPython o_name)) = VOk v /\
  fst (run ex_env (fun _ => None) 1 sc i (call_state ITPython o_name)) = VErr e /\
  fst (run ex_env (fun _ => None) 1 (over o_name sc) i (call_state ITPython (unruled o_name))) = VOk v.
Proof.
  exists o_wrap, (IPy (PDict [(PStr (lit "a"), PStr (lit "1"))])), (PDict [(PStr (lit "a"), PInt 1)]). eexists. split; [reflexivity|]. split; [lazy; reflexivity|]. split; lazy; reflexivity.
Qed.
Print Assumptions C87_wrap_refuted.

(** C87, against the reading that a strict call and a strict config are the same: where a
    schema says [strict=False] the call overrides it, the config does not. *)
Theorem C87_own_setting_refuted : exists c s defs s' defs' i v e,
  x_validator None c = Built (s, defs) /\ x_validator (Some (with_options o_strict None)) (configured o_strict c) = Built (s', defs') /\
  fst (run ex_env defs 1 s i (call_state ITPython o_strict)) = VErr e /\ fst (run ex_env defs' 1 s' i (call_state ITPython (unruled o_strict))) = VOk v.
Proof. exists (k_int (Some false)). eexists _, _, _, _, (IPy (PStr (lit "1"))), (PInt 1), _. split; [lazy; reflexivity|]. split; [lazy; reflexivity|]. split; lazy; reflexivity. Qed.
Print Assumptions C87_own_setting_refuted.

(** C87, against the same reading: the config does not get to models inside that have none. *)
Theorem C87_class_refuted : exists c s defs s' defs' i v e,
  x_validator None c = Built (s, defs) /\ x_validator (Some (with_options o_strict None)) c = Built (s', defs') /\
  fst (run ex_env defs 1 s i (call_state ITPython o_strict)) = VErr e /\ fst (run ex_env defs' 1 s' i (call_state ITPython (unruled o_strict))) = VOk v.
Proof.
  exists (KTypedDict None (x_rk None) [(x_ek (lit "a") None, k_int None)] None). eexists _, _, _, _, (IPy (PDict [(PStr (lit "a"), PStr (lit "1"))])), (PDict [(PStr (lit "a"), PInt 1)]), _.
  split; [lazy; reflexivity|]. split; [lazy; reflexivity|]. split; lazy; reflexivity.
Qed.
Print Assumptions C87_class_refuted.
