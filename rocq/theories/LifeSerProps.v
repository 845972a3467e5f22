(** C97 and C85: an instance serializes without warnings all its life. *)
From Coq Require Import List NArith ZArith Bool Lia.
From Verif Require Import Base Float64 Values VState LookupKey Collections Child Inputs Wrappers ModelFields Assign AssignSpec Classes Interp InterpSpec InterpExamples ConformSpec ConformProps Api ApiSpec ApiProps LifeSpec LifeProps.
From Verif Require SerBase Ser Filter.
From Verif Require Import SerOf SerOfSpec SerOfCalm SerOfProofs SerOfProps.
Import ListNotations.
Open Scope nat_scope.

(** Every conforming value, wherever it comes from. *)
Theorem C97_conforming_no_warnings : forall E defs sc v w open SE s,
  conforms E defs false sc v -> steady E defs false w open sc -> both_defined E defs false w open SE -> ser_of w sc = Built s ->
  tidy v -> (open = true -> built_in v) ->
  forall c o, Ser.o_as_any o = false ->
    (forall json r shown, Ser.to_python SE s c json o v = Ser.Returned r shown -> shown = []) /\
    (forall r shown, Ser.to_json SE s c o v = Ser.Returned r shown -> shown = []).
Proof.
  intros E defs sc v w open SE s CF ST DEF B T O c o NA.
  assert (SU : suits SE (expected E defs false w open) s v) by (apply (conforms_suits E defs false w open SE DEF sc ST s v B CF); now split).
  pose proof (suits_calm SE _ (expected_suits E defs false w open SE DEF) Ser.ser_limit s v SU) as CALM.
  assert (BY : forall json, by_schema (Ser.start c json o)) by (intros json; split; [cbn; now rewrite NA|reflexivity]).
  split.
  - intros json r shown. destruct (CALM _ (BY json)) as [P _]. destruct (P (Ser.o_include o) (Ser.o_exclude o)) as [P1 _].
    unfold Ser.to_python, Ser.final_check. destruct (snd _) as [a|e] eqn:G; [|discriminate]. rewrite (P1 a G).
    destruct (Ser.o_warnings o); cbn; intros [= _ <-]; reflexivity.
  - intros r shown. destruct (CALM _ (BY true)) as [P _]. destruct (P (Ser.o_include o) (Ser.o_exclude o)) as [_ P1].
    unfold Ser.to_json, Ser.final_check. destruct (snd _) as [a|e] eqn:G; [|discriminate]. rewrite (P1 a G).
    destruct (Ser.o_warnings o); cbn; intros [= _ <-]; reflexivity.
Qed.
Print Assumptions C97_conforming_no_warnings.

(** A model instance after any series of assignments. *)
Theorem C97_life_without_warnings : forall E defs cm c fields ex fuel i st v st' m fuel' ops m' ns fs w open SE s,
  holds_of proper defs (SModelFields c fields ex None) -> from_strings i = false ->
  run E defs fuel (SModelFields c fields ex None) i st = (VOk v, st') -> born v = Some m -> apart fields m ->
  attempts (assign E defs fuel' c fields ex None) ops m = (m', ns) ->
  mo_root cm = false -> mo_post_init cm = None ->
  steady E defs false w open (SModel cm (SModelFields c fields ex None)) -> both_defined E defs false w open SE ->
  ser_of w (SModel cm (SModelFields c fields ex None)) = Built s ->
  let self := model_inst (mo_cls cm) (PDict (mi_dict m')) (mi_extra m') fs in
  tidy self -> (open = true -> built_in self) ->
  forall c o, Ser.o_as_any o = false ->
    (forall json r shown, Ser.to_python SE s c json o self = Ser.Returned r shown -> shown = []) /\
    (forall r shown, Ser.to_json SE s c o self = Ser.Returned r shown -> shown = []).
Proof.
  intros E defs cm c fields ex fuel i st v st' m fuel' ops m' ns fs w open SE s W NS R B A T RT PI ST DEF BU self TI O.
  destruct (C97_stays_valid E defs c fields ex fuel i st v st' m fuel' ops m' ns W NS R B A T) as (x & _ & _ & CF).
  exact (C97_conforming_no_warnings E defs _ self w open SE s (CF cm fs RT PI) ST DEF BU TI O).
Qed.
Print Assumptions C97_life_without_warnings.

(** A default, as [get_default_value] gives it. *)
Theorem C96_default_without_warnings : forall E defs fuel sc strict v w open SE s,
  holds_of proper defs sc -> get_default_value E defs fuel sc strict = VOk (Some v) ->
  steady E defs false w open sc -> both_defined E defs false w open SE -> ser_of w sc = Built s ->
  tidy v -> (open = true -> built_in v) ->
  forall c o, Ser.o_as_any o = false ->
    (forall json r shown, Ser.to_python SE s c json o v = Ser.Returned r shown -> shown = []) /\
    (forall r shown, Ser.to_json SE s c o v = Ser.Returned r shown -> shown = []).
Proof.
  intros E defs fuel sc strict v w open SE s W G. destruct (C96_default_conforms E defs fuel sc strict v W G) as [CF _].
  exact (C97_conforming_no_warnings E defs sc v w open SE s CF).
Qed.
Print Assumptions C96_default_without_warnings.

(** ** Example: the recursive model of C85, assigned to twice *)
Definition family_fields : list (finfo * schema) := [xfield (lit "value") true xint; xfield (lit "children") false kids].
Example C97_ser_ex : forall c o, Ser.o_as_any o = false ->
  exists v st' m m', run ex_env family_defs 9 (SModelFields (xinfos ExtraIgnore) family_fields None None) family_input (call_state ITPython ex_opts) = (VOk v, st') /\ born v = Some m /\
    attempts (assign ex_env family_defs 9 (xinfos ExtraIgnore) family_fields None None) [(lit "value", PStr (lit "7"), call_state ITPython ex_opts); (lit "children", PInt 1, call_state ITPython ex_opts)] m = (m', [lit "value"]) /\
    model_inst 5 (PDict (mi_dict m')) (mi_extra m') (PSet [PStr (lit "value"); PStr (lit "children")]) = person 7 [person 2 []] /\
    forall r shown, Ser.to_json family_env family_ser c o (person 7 [person 2 []]) = Ser.Returned r shown -> shown = [].
Proof.
  intros c o NA.
  assert (W : holds_of proper family_defs (SModelFields (xinfos ExtraIgnore) family_fields None None)).
  { destruct family_proper as [W D]. split; [|exact D]. inversion_clear W as [? _ WC]. apply WC. now left. }
  eexists _, _, _, _. split; [vm_compute; reflexivity|]. split; [vm_compute; reflexivity|]. split; [vm_compute; reflexivity|]. split; [reflexivity|].
  refine (proj2 (C97_conforming_no_warnings ex_env family_defs family (person 7 [person 2 []]) w85 false family_env family_ser _ family_steady family_both eq_refl _ _ c o NA)).
  - edestruct (fun v s' m m' ns => C97_stays_valid ex_env family_defs (xinfos ExtraIgnore) family_fields None 9 family_input (call_state ITPython ex_opts) v s' m 9
      [(lit "value", PStr (lit "7"), call_state ITPython ex_opts); (lit "children", PInt 1, call_state ITPython ex_opts)] m' ns W eq_refl) as (x & _ & _ & CF);
      [vm_compute; reflexivity|vm_compute; reflexivity|intros e n w f sc Q; discriminate Q|vm_compute; reflexivity|].
    exact (CF m85 (PSet [PStr (lit "value"); PStr (lit "children")]) eq_refl eq_refl).
  - apply person_tidy. intros k [<-|[]]. apply person_tidy. intros k [].
  - discriminate.
Qed.
