From Coq Require Import List NArith ZArith Bool Lia.
From Verif Require Import Base Float64 IntParse Numbers BytesCodec Values VState LookupKey Collections Child Inputs Scalars Literal Wrappers Union TaggedUnion Tuple ModelFields TypedDict Assign Arguments Classes Interp InterpSpec InterpProofs StrictSpec StrictProofs StrictProofs2.
Import ListNotations.
Open Scope nat_scope.

Definition good_md (md : mdict) : Prop :=
  (forall k e, md_get md k = VErr e -> quiet e) /\ (forall e, md_iter md = VErr e -> quiet e) /\ (forall es, md_iter md = VOk es -> Forall good_entry es).
Lemma key_str_quiet i e : key_str i = VErr e -> quiet e.
Proof. destruct i as [v|[]| |v]; cbn; try discriminate; try (intros [= <-]; exact I); destruct (as_str v); try discriminate; intros [= <-]; exact I. Qed.

Ltac ne ::= solve [ assumption | cbn; first [ assumption | apply app_ne; ne | apply app_map_ne, quiet_lines; assumption | apply app_ne_r; first [assumption | apply quiet_lines; assumption | easy] | easy ] ].
Ltac known :=
  match goal with
  | HM : good_md ?md, H : md_get ?md _ = VErr ?e |- _ => lazymatch goal with Q : quiet e |- _ => fail | _ => pose proof (proj1 HM _ _ H) end
  | HM : good_md ?md, H : md_iter ?md = VErr ?e |- _ => lazymatch goal with Q : quiet e |- _ => fail | _ => pose proof (proj1 (proj2 HM) _ H) end
  | H : key_str _ = VErr ?e |- _ => lazymatch goal with Q : quiet e |- _ => fail | _ => pose proof (key_str_quiet _ _ H) end
  | Q : quiet ?e |- _ => is_var e; destruct e as [?es| | | |]; try contradiction Q
  end.
Ltac split1 :=
  match goal with |- Sub _ ?t _ =>
    match t with
    | context [match ?x with _ => _ end] => lazymatch x with context [match _ with _ => _ end] => fail | _ => lazymatch type of x with prod (vres _) state => fail | _ => destruct x eqn:? end end
    end end.
Ltac doom IH := repeat first [ dead | apply IH; [ne|rs] | known | kid1 | split1 ].
Ltac both IH DM := repeat first [ fin | apply IH; rs | apply DM; [ne|rs] | known | kid | split1 ].

(** ** Model fields *)
Section Fields.
Variable c : fields_cfg.
Variable md : mdict.
Hypothesis HM : good_md md.
Variable i : input.
Notation D := (fun a => fa_errors a <> []).
Lemma fields_doom ba bn fs : Forall (fun f => csub (f_cv f)) fs -> forall a s r2, fa_errors a <> [] -> R s s -> Sub D (fields_loop c md i ba bn fs a s) r2.
Proof. induction 1 as [|f fs V F IH]; intros a s r2 NE H; cbn [fields_loop]; [dead|]. cbv zeta. doom IH. Qed.
Lemma fields_sub ba bn fs : Forall (fun f => csub (f_cv f)) fs -> forall a s1 s2, R s1 s2 -> Sub D (fields_loop c md i ba bn fs a s1) (fields_loop c md i ba bn fs a s2).
Proof.
  induction 1 as [|f fs V F IH]; intros a s1 s2 H; cbn [fields_loop]; [fin|]. cbv zeta.
  pose proof (fields_doom ba bn fs F) as DM. both IH DM.
Qed.
Hypothesis HX : forall v, fc_extras c = Some v -> sub v.
Hypothesis HK : forall v, fc_extras_keys c = Some v -> sub v.
Lemma key_errors_sub kloc l : l <> [] -> map (fun e => set_type EInvalidKey (with_outer kloc e)) l <> []. Proof. destruct l; easy. Qed.
Notation DE := (fun x : list (pyval * pyval) * list line_error * list str => snd (fst x) <> []).
Lemma extras_doom used es : Forall good_entry es -> forall out errs fset s r2, errs <> [] -> R s s -> Sub DE (extras_loop c used es out errs fset s) r2.
Proof.
  induction 1 as [|[key kloc value|e] es G F IH]; intros out errs fset s r2 NE H; cbn [extras_loop]; [dead| |dead]. cbv zeta.
  destruct (fc_extras c) as [v|]; [pose proof (HX v eq_refl)|]; (destruct (fc_extras_keys c) as [vk|]; [pose proof (HK vk eq_refl)|]); clear HX HK; doom IH.
Qed.
Lemma extras_sub used es : Forall good_entry es -> forall out errs fset s1 s2, R s1 s2 -> Sub DE (extras_loop c used es out errs fset s1) (extras_loop c used es out errs fset s2).
Proof.
  induction 1 as [|[key kloc value|e] es G F IH]; intros out errs fset s1 s2 H; cbn [extras_loop]; [fin| |fin]. cbv zeta. pose proof (extras_doom used es F) as DM.
  destruct (fc_extras c) as [v|]; [pose proof (HX v eq_refl)|]; (destruct (fc_extras_keys c) as [vk|]; [pose proof (HK vk eq_refl)|]); clear HX HK; both IH DM.
Qed.
End Fields.

Definition reads2 (f : bool -> bool -> input -> vres mdict) : Prop :=
  forall fa i, match f true fa i with VOk md => good_md md /\ forall st, f st fa i = VOk md | VErr e => quiet e end.
Lemma fa_same d s1 s2 : R s1 s2 -> unwrap_or (x_from_attributes (st_extra s1)) d = unwrap_or (x_from_attributes (st_extra s2)) d.
Proof. intros H. apply ex_fields in H. cbv zeta in H. now destruct H as (_ & -> & _). Qed.
Lemma model_errors_quiet es : quiet (LineErrors es) -> quiet (LineErrors (model_type_errors es)). Proof. destruct es; easy. Qed.
Lemma model_fields_sub c vmf : Forall (fun f => csub (f_cv f)) (fc_fields c) -> (forall v, fc_extras c = Some v -> sub v) -> (forall v, fc_extras_keys c = Some v -> sub v) ->
  reads2 vmf -> sub (model_fields_validate c vmf).
Proof.
  intros HF HX HK HR i s1 s2 H. unfold model_fields_validate. cbv zeta. apply R_partial in H. rewrite (fa_same _ _ _ H), (strict_on _ _ _ H), (by_alias_same _ _ _ H), (by_name_same _ _ _ H).
  specialize (HR (unwrap_or (x_from_attributes (st_extra (set_partial PartialOff s2))) (fc_from_attributes c)) i).
  destruct (vmf true _ i) as [md|e]; [destruct HR as [HM ->]|destruct e; try contradiction HR; apply SubBad; try exact I; [now apply model_errors_quiet|rs|rs|rs]].
  match goal with |- Sub _ (match rebind ?f ?s1 ?k1 with _ => _ end) (match rebind ?f ?s2 ?k2 with _ => _ end) =>
    assert (K : Sub (fun a => fa_errors a <> []) (rebind f s1 k1) (rebind f s2 k2)) by (apply rebind_sub; [rs|intros; rs|intros; now apply fields_sub]) end.
  destruct K as [e t r Q T|a t r NE T|a t1 t2 T]; [bad| |].
  - destruct (_ || _).
    + destruct (fa_errors a); [easy|]. bad.
    + destruct (md_iter md) as [es|e] eqn:MI; [|apply (proj1 (proj2 HM)) in MI; bad]. apply (proj2 (proj2 HM)) in MI.
      pose proof (extras_doom c HX HK (fa_used a) es MI [] (fa_errors a) (fa_set a) t (VErr Panic, t) NE T) as K. remember (VErr Panic, t) as p.
      destruct K as [e u p Q U|[[out errs] fset] u p NE' U|]; [bad| |discriminate]. cbn in NE'. destruct errs; [easy|]. bad.
  - destruct (_ || _).
    + destruct (fa_errors a); bad.
    + destruct (md_iter md) as [es|e] eqn:MI; [|apply (proj1 (proj2 HM)) in MI; bad]. apply (proj2 (proj2 HM)) in MI.
      destruct (extras_sub c HX HK (fa_used a) es MI [] (fa_errors a) (fa_set a) t1 t2 T) as [e u p Q U|[[out errs] fset] u p NE' U|[[out errs] fset] u1 u2 U]; [bad| |].
      * cbn in NE'. destruct errs; [easy|]. bad.
      * destruct errs; bad.
Qed.

(** ** Typed dicts *)
Section Typed.
Variable c : fields_cfg.
Variable md : mdict.
Hypothesis HM : good_md md.
Variable i : input.
Notation D := (fun a => fa_errors a <> []).
Lemma td_doom p ba bn fs : Forall (fun f => csub (f_cv f)) fs -> forall a s r2, fa_errors a <> [] -> R s s -> Sub D (td_loop c md i None p ba bn fs a s) r2.
Proof. induction 1 as [|f fs V F IH]; intros a s r2 NE H; cbn [td_loop last_is negb orb]; [dead|]. cbv zeta. doom IH. Qed.
Lemma td_sub p ba bn fs : Forall (fun f => csub (f_cv f)) fs -> forall a s1 s2, R s1 s2 -> Sub D (td_loop c md i None p ba bn fs a s1) (td_loop c md i None p ba bn fs a s2).
Proof.
  induction 1 as [|f fs V F IH]; intros a s1 s2 H; cbn [td_loop last_is negb orb]; [fin|]. cbv zeta.
  pose proof (td_doom p ba bn fs F) as DM. both IH DM.
Qed.
Hypothesis HX : forall v, fc_extras c = Some v -> sub v.
Notation DE := (fun x : list (pyval * pyval) * list line_error => snd x <> []).
Lemma td_extras_doom used p es : Forall good_entry es -> forall out errs s r2, errs <> [] -> R s s -> Sub DE (td_extras c used None p es out errs s) r2.
Proof.
  induction 1 as [|[key kloc value|e] es G F IH]; intros out errs s r2 NE H; cbn [td_extras last_is]; [dead| |dead]. cbv zeta.
  destruct (fc_extras c) as [v|]; [pose proof (HX v eq_refl)|]; clear HX; doom IH.
Qed.
Lemma td_extras_sub used p es : Forall good_entry es -> forall out errs s1 s2, R s1 s2 -> Sub DE (td_extras c used None p es out errs s1) (td_extras c used None p es out errs s2).
Proof.
  induction 1 as [|[key kloc value|e] es G F IH]; intros out errs s1 s2 H; cbn [td_extras last_is]; [fin| |fin]. cbv zeta. pose proof (td_extras_doom used p es F) as DM.
  destruct (fc_extras c) as [v|]; [pose proof (HX v eq_refl)|]; clear HX; both IH DM.
Qed.
End Typed.
Lemma typed_dict_sub c vd : Forall (fun f => csub (f_cv f)) (fc_fields c) -> (forall v, fc_extras c = Some v -> sub v) ->
  reads vd -> (forall st i md, vd st i = VOk md -> good_md md) -> sub (typed_dict_validate c vd).
Proof.
  intros HF HX HR HG i s1 s2 H. unfold typed_dict_validate. cbv zeta.
  destruct (read_cases _ vd (fc_strict c) i s1 s2 HR H) as [(e & EQ & Q)|(md & EQ & EQ2)]; rewrite EQ; [bad|]. rewrite EQ2. apply HG in EQ. rename EQ into HM.
  rewrite (off1 _ _ H), (off2 _ _ H), (by_alias_same _ _ _ H), (by_name_same _ _ _ H). cbn [is_active].
  match goal with |- Sub _ (match rebind ?f ?s1 ?k1 with _ => _ end) (match rebind ?f ?s2 ?k2 with _ => _ end) =>
    assert (K : Sub (fun a => fa_errors a <> []) (rebind f s1 k1) (rebind f s2 k2)) end.
  { apply rebind_sub; [rs|intros; rs|]. intros u1 u2 U. destruct (td_sub c md HM i PartialOff (validate_by_alias_or s2 (fc_by_alias c)) (validate_by_name_or s2 (fc_by_name c)) _ HF fa_init u1 u2 U) as [e t r Q T|a t r NE T|a t1 t2 T]; [bad|apply SubDoom; [exact NE|rs]|apply SubSame; rs]. }
  destruct K as [e t r Q T|a t r NE T|a t1 t2 T]; [bad| |].
  - destruct (_ || _).
    + destruct (fa_errors a); [easy|]. bad.
    + destruct (md_iter md) as [es|e] eqn:MI; [|apply (proj1 (proj2 HM)) in MI; bad]. apply (proj2 (proj2 HM)) in MI.
      pose proof (td_extras_doom c HX (fa_used a) PartialOff es MI (fa_dict a) (fa_errors a) t (VErr Panic, t) NE T) as K. remember (VErr Panic, t) as p.
      destruct K as [e u p Q U|[out errs] u p NE' U|]; [bad| |discriminate]. cbn in NE'. destruct errs; [easy|]. bad.
  - destruct (_ || _).
    + destruct (fa_errors a); bad.
    + destruct (md_iter md) as [es|e] eqn:MI; [|apply (proj1 (proj2 HM)) in MI; bad]. apply (proj2 (proj2 HM)) in MI.
      destruct (td_extras_sub c HX (fa_used a) PartialOff es MI (fa_dict a) (fa_errors a) t1 t2 T) as [e u p Q U|[out errs] u p NE' U|[out errs] u1 u2 U]; [bad| |].
      * cbn in NE'. destruct errs; [easy|]. bad.
      * destruct errs; bad.
Qed.
