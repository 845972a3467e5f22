(** C10, C11: finding field values by name and alias. *)
From Coq Require Import List NArith ZArith Bool Lia.
From Verif Require Import Base Float64 Values VState LookupKey LookupKeySpec LookupKeyProofs CollectionsSpec CollectionsProofs.
Import ListNotations.
Open Scope nat_scope.

(** C10: in a dict, a key finds the value of its first path that resolves. *)
Theorem C10_dict_lookup : forall k d p v, built_key k ->
  (py_get_dict_item k d = Some (p, v) <->
   first_resolving (fun q w => follow py_step (PDict d) (items q) w) (paths_of k) p v).
Proof.
  intros k d p v B. rewrite py_get_dict_item_paths by assumption. apply first_path_spec. intros q I w.
  assert (G : good_path q) by (destruct B as [B _]; rewrite Forall_forall in B; auto). unfold items. split.
  - intros (v0 & F0 & F1). econstructor; [apply ps_dict; exact F0|]. apply (try_fold_spec _ _ py_get_item_spec); assumption.
  - intros F. inversion F; subst. inversion H2; subst. exists v1. split; [assumption|]. apply (try_fold_spec _ _ py_get_item_spec) in H4; assumption.
Qed.
Print Assumptions C10_dict_lookup.

Theorem C10_dict_absent : forall k d, built_key k ->
  (py_get_dict_item k d = None <-> forall q w, In q (paths_of k) -> ~ follow py_step (PDict d) (items q) w).
Proof.
  intros k d B. split.
  - intros N q w I F. rewrite py_get_dict_item_paths in N by assumption.
    assert (G : good_path q) by (destruct B as [B _]; rewrite Forall_forall in B; auto).
    inversion F; subst. inversion H2; subst. cbn [item_key] in *. apply (try_fold_spec _ _ py_get_item_spec) in H4; [|assumption].
    clear B F H2 G. induction (paths_of k) as [|p ps IH]; [destruct I|]. cbn [first_path] in N. destruct I as [->|I].
    + match goal with H : dict_get _ d = Some _ |- _ => rewrite H in N end. rewrite H4 in N. discriminate.
    + apply IH; [|assumption]. destruct (dict_get (PStr (lp_first p)) d); [|assumption]. destruct (try_fold _ _ _); [discriminate|assumption].
  - intros N. destruct (py_get_dict_item k d) as [[p v]|] eqn:E; [|reflexivity]. apply C10_dict_lookup in E; [|assumption].
    destruct E as (pre & post & E1 & E2 & _). exfalso. eapply N; [|exact E2]. rewrite E1. apply in_or_app. right. left. reflexivity.
Qed.
Print Assumptions C10_dict_absent.

(** C10: in a JSON object too, where the last occurrence of a key counts. *)
Theorem C10_json_lookup : forall k l p v, built_key k ->
  (json_get k l = Some (p, v) <->
   first_resolving (fun q w => follow json_step (JObj l) (items q) w) (paths_of k) p v).
Proof.
  intros k l p v B. rewrite json_get_paths by assumption. apply first_path_spec. intros q I w.
  assert (G : good_path q) by (destruct B as [B _]; rewrite Forall_forall in B; auto). unfold items. split.
  - intros (v0 & F0 & F1). apply assoc_rev_last in F0. destruct F0 as (pre & post & -> & N).
    econstructor; [apply js_obj; exact N|]. apply (try_fold_spec _ _ json_get_item_spec); assumption.
  - intros F. inversion F; subst. inversion H2; subst. exists v1. split; [apply assoc_rev_last; eauto|]. apply (try_fold_spec _ _ json_get_item_spec) in H4; assumption.
Qed.
Print Assumptions C10_json_lookup.

(** C10: on an object, attributes are read the same way; an attribute that raises
    something other than AttributeError ends the search. *)
Theorem C10_attr_lookup : forall getattr k v, built_key k -> is_dict v = false ->
  (forall p x, simple_py_get_attr getattr k v = inl (Some (p, x)) <->
     exists pre post, paths_of k = pre ++ p :: post /\ attr_follow getattr v (items p) (AVal x) /\
       forall q, In q pre -> attr_follow getattr v (items q) AMissing) /\
  (forall e, simple_py_get_attr getattr k v = inr e <->
     exists pre p post, paths_of k = pre ++ p :: post /\ attr_follow getattr v (items p) (ARaise e) /\
       forall q, In q pre -> attr_follow getattr v (items q) AMissing) /\
  (simple_py_get_attr getattr k v = inl None <->
     forall q, In q (paths_of k) -> attr_follow getattr v (items q) AMissing).
Proof.
  intros getattr k v B D.
  assert (E : simple_py_get_attr getattr k v = attr_path getattr v (paths_of k)).
  { destruct B as [_ B]. destruct k as [p|p q|ps]; cbn [simple_py_get_attr paths_of attr_path attrs_fold py_get_attrs]; [rewrite D, B|destruct B as [B1 B2]; rewrite D, B1, B2|reflexivity].
    - cbn [attrs_fold]. destruct (getattr v (lp_first p)); reflexivity.
    - cbn [attrs_fold]. destruct (getattr v (lp_first p)); [reflexivity| |reflexivity]. destruct (getattr v (lp_first q)); reflexivity. }
  rewrite E. destruct B as [B _].
  assert (S : forall q, In q (paths_of k) -> forall r, attrs_fold getattr v (items q) = r <-> attr_follow getattr v (items q) r).
  { intros q I r. apply attrs_fold_spec. constructor; [discriminate|]. rewrite Forall_forall in B. apply B. assumption. }
  clear E B. induction (paths_of k) as [|q ps IH].
  - cbn [attr_path]. repeat split.
    all: try discriminate.
    all: try (intros ? ? []; fail). all: try (intros; reflexivity).
    + intros (pre & post & H & _). destruct pre; discriminate.
    + intros (pre & p & post & H & _). destruct pre; discriminate.
  - destruct IH as (I1 & I2 & I3); [intros q' I; apply S; right; assumption|]. pose proof (S q (or_introl eq_refl)) as Sq.
    cbn [attr_path]. change (PiS (lp_first q) :: lp_rest q) with (items q).
    destruct (attrs_fold getattr v (items q)) as [x0| |e0] eqn:A.
    + pose proof (proj1 (Sq _) eq_refl) as F0. repeat split.
      * intros H. injection H as <- <-. exists [], ps. split; [reflexivity|]. split; [assumption|intros ? []].
      * intros (pre & post & H & F & N). destruct pre as [|a pre]; injection H as <- ->; [apply Sq in F; congruence|].
        specialize (N q (or_introl eq_refl)). apply Sq in N. discriminate.
      * discriminate.
      * intros (pre & p & post & H & F & N). destruct pre as [|a pre]; injection H as <- ->; [apply Sq in F; discriminate|].
        specialize (N q (or_introl eq_refl)). apply Sq in N. discriminate.
      * discriminate.
      * intros N. specialize (N q (or_introl eq_refl)). apply Sq in N. discriminate.
    + pose proof (proj1 (Sq _) eq_refl) as F0. repeat split.
      * intros H. apply I1 in H. destruct H as (pre & post & -> & F & N). exists (q :: pre), post. split; [reflexivity|]. split; [assumption|]. intros q' [<-|I]; auto.
      * intros (pre & post & H & F & N). destruct pre as [|a pre]; injection H as <- ->; [apply Sq in F; discriminate|]. apply I1. exists pre, post. split; [reflexivity|]. split; [assumption|]. intros q' I. apply N. right; assumption.
      * intros H. apply I2 in H. destruct H as (pre & p & post & -> & F & N). exists (q :: pre), p, post. split; [reflexivity|]. split; [assumption|]. intros q' [<-|I]; auto.
      * intros (pre & p & post & H & F & N). destruct pre as [|a pre]; injection H as <- ->; [apply Sq in F; discriminate|]. apply I2. exists pre, p, post. split; [reflexivity|]. split; [assumption|]. intros q' I. apply N. right; assumption.
      * intros H q' [<-|I]; [assumption|]. apply (proj1 I3 H); assumption.
      * intros N. apply I3. intros q' I. apply N. right; assumption.
    + pose proof (proj1 (Sq _) eq_refl) as F0. repeat split.
      * discriminate.
      * intros (pre & post & H & F & N). destruct pre as [|a pre]; injection H as <- ->; [apply Sq in F; discriminate|].
        specialize (N q (or_introl eq_refl)). apply Sq in N. discriminate.
      * intros H. injection H as <-. exists [], q, ps. split; [reflexivity|]. split; [assumption|intros ? []].
      * intros (pre & p & post & H & F & N). destruct pre as [|a pre]; injection H as <- ->; [apply Sq in F; congruence|].
        specialize (N q (or_introl eq_refl)). apply Sq in N. discriminate.
      * discriminate.
      * intros N. specialize (N q (or_introl eq_refl)). apply Sq in N. discriminate.
Qed.
Print Assumptions C10_attr_lookup.

(** C10: which paths are tried: the alias paths when validating by alias, then the
    field name when validating by name or when there is no alias; disabling both is
    refused. *)
Theorem C10_names_tried : forall alias name c by_alias by_name,
  collection_new alias name = BOk c ->
  (forall k, collection_select c by_alias by_name = BOk k ->
     built_key k /\ exists aps,
       match alias with Some a => alias_means a aps | None => aps = [] end /\
       paths_of k = (if by_alias then aps else []) ++
                    (if by_name || is_none alias then [{| lp_first := name; lp_rest := [] |}] else [])) /\
  (collection_select c by_alias by_name = BErr <-> by_alias = false /\ by_name = false).
Proof.
  intros alias name c ba bn C. unfold collection_new in C.
  assert (BN : built_key (Simple (path_from_str name))) by (split; cbn; repeat constructor).
  destruct alias as [a|].
  - destruct (key_from_py a None) as [k1|] eqn:E1; [|discriminate]. destruct (key_from_py a (Some name)) as [k2|] eqn:E2; [|discriminate].
    injection C as <-. apply key_from_py_ok in E1. apply key_from_py_ok in E2. destruct E1 as (B1 & ps1 & M1 & P1). destruct E2 as (B2 & ps2 & M2 & P2).
    split.
    + intros k. destruct ba, bn; cbn [collection_select kc_by_alias_then_name kc_by_alias kc_by_name unwrap_or orb is_none]; intros H; try discriminate; injection H as <-.
      * split; [assumption|]. exists ps2. auto.
      * split; [assumption|]. exists ps1. auto.
      * split; [assumption|]. exists ps1. split; [assumption|reflexivity].
    + destruct ba, bn; cbn; split; try discriminate; try (intros [? ?]; discriminate); auto.
  - injection C as <-. split.
    + intros k. destruct ba, bn; cbn [collection_select kc_by_alias_then_name kc_by_alias kc_by_name unwrap_or orb is_none]; intros H; try discriminate; injection H as <-; (split; [assumption|]; exists []; split; reflexivity).
    + destruct ba, bn; cbn; split; try discriminate; try (intros [? ?]; discriminate); auto.
Qed.
Print Assumptions C10_names_tried.

(** C10: an alias is accepted iff it is a name, a non-empty path, or a non-empty list
    of paths, each starting with a name and going on with names and integers. *)
Theorem C10_alias_accepted : forall a name,
  (exists c, collection_new (Some a) name = BOk c) <-> exists ps, alias_means a ps.
Proof.
  intros a name. unfold collection_new. split.
  - destruct (key_from_py a None) as [k1|] eqn:E1; [|intros [c H]; discriminate]. intros _. apply key_from_py_ok in E1. destruct E1 as (_ & ps & M & _). eauto.
  - intros [ps M]. destruct (key_from_py_total a None ps M) as [k1 ->]. destruct (key_from_py_total a (Some name) ps M) as [k2 ->]. eauto.
Qed.
Print Assumptions C10_alias_accepted.

(** C10: where errors are located: under the path that found the value (for a missing
    value, the preferred path), or under the field name when so configured. *)
Definition spec_location (loc_by_alias : bool) (p : lookup_path) (field_name : str) : list loc_item :=
  if loc_by_alias then map to_loc_item (items p) else [LStr field_name].
Theorem C10_error_location : forall p e loc_by_alias field_name,
  loc_path (le_loc (apply_error_loc p e loc_by_alias field_name)) = spec_location loc_by_alias p field_name ++ loc_path (le_loc e) /\
  le_type (apply_error_loc p e loc_by_alias field_name) = le_type e /\
  le_input (apply_error_loc p e loc_by_alias field_name) = le_input e.
Proof.
  intros p e b f. unfold apply_error_loc, spec_location. destruct b.
  - assert (X : forall r e0, let e1 := fold_left (fun e i => with_outer (to_loc_item i) e) (rev r) e0 in
      loc_path (le_loc e1) = map to_loc_item r ++ loc_path (le_loc e0) /\ le_type e1 = le_type e0 /\ le_input e1 = le_input e0).
    { intros r. induction r as [|i r IH]; intros e0; [repeat split|]. cbn [rev]. rewrite fold_left_app. cbn [fold_left map app].
      destruct (IH e0) as (I1 & I2 & I3). cbv zeta. split; [rewrite (proj1 (with_outer_path (to_loc_item i) _)), I1; reflexivity|split; cbn; assumption]. }
    destruct (X (lp_rest p) e) as (X1 & X2 & X3). split; [rewrite (proj1 (with_outer_path (LStr (lp_first p)) _)), X1; reflexivity|split; cbn; assumption].
  - split; [rewrite (proj1 (with_outer_path (LStr f) _)); reflexivity|split; reflexivity].
Qed.
Print Assumptions C10_error_location.

Theorem C10_missing_location : forall k t i loc_by_alias field_name, built_key k ->
  exists e p, key_error k t i loc_by_alias field_name = Some e /\ hd_error (paths_of k) = Some p /\
    le_type e = t /\ le_input e = i /\ loc_path (le_loc e) = spec_location loc_by_alias p field_name.
Proof.
  intros k t i b f [_ B]. unfold key_error, spec_location.
  assert (F : exists p, first_of k = Some p /\ hd_error (paths_of k) = Some p).
  { destruct k as [p|p q|ps]; [exists p; split; reflexivity..|]. destruct ps as [|p ps]; [congruence|]. exists p; split; reflexivity. }
  destruct F as (p & F1 & F2). destruct b.
  - rewrite F1. eexists _, p. split; [reflexivity|]. split; [assumption|]. cbn. repeat split. rewrite rev_app_distr, <- map_rev, rev_involutive. reflexivity.
  - eexists _, p. split; [reflexivity|]. split; [assumption|]. cbn. repeat split.
Qed.
Print Assumptions C10_missing_location.

(** C10: the location of a path is the alias as the schema wrote it, negative
    positions included. *)
Theorem C10_location_is_alias : forall l p, path_means (ALi l) p ->
  forall field_name, spec_location true p field_name = map alias_loc l.
Proof.
  intros l p M f. inversion M as [s rest r F E1 E2]; subst. unfold spec_location, items. cbn [lp_first lp_rest map to_loc_item alias_loc]. f_equal.
  clear M. induction F as [|a i rest r H F IH]; [reflexivity|]. cbn [map]. rewrite IH. f_equal. inversion H; subst; reflexivity.
Qed.
Print Assumptions C10_location_is_alias.
Example C10_location_is_alias_ex : exists p, path_means (ALi [ASt (lit "x"); AIn (-1); AIn 2]) p /\ spec_location true p (lit "f") = [LStr (lit "x"); LInt (-1); LInt 2].
Proof.
  exists {| lp_first := lit "x"; lp_rest := [PiNeg 1; PiPos 2] |}. split; [|reflexivity]. constructor. repeat constructor.
  - apply (im_neg 1); [discriminate|cbv; discriminate].
  - apply (im_pos 2). reflexivity.
Qed.


(** C10: keyword arguments are looked at before attributes, and a raising attribute
    is reported as an error about that object. *)
Theorem C10_attr_kwargs_first : forall getattr k v kwargs r,
  py_get_attr getattr k v kwargs = r ->
  match kwargs with
  | Some d => match py_get_dict_item k d with
              | Some x => r = VOk (Some x)
              | None => r = py_get_attr getattr k v None
              end
  | None => forall e, simple_py_get_attr getattr k v = inr e -> r = VErr (LineErrors [new_error EGetAttributeError (IPy v)])
  end.
Proof.
  intros getattr k v [d|] r <-; unfold py_get_attr.
  - destruct (py_get_dict_item k d); reflexivity.
  - intros e ->. reflexivity.
Qed.
Print Assumptions C10_attr_kwargs_first.

(** C11: looking up in a JSON document gives what looking up in the parsed Python
    object gives: same path, same value. *)
Theorem C11_json_python_lookup : forall k l d, built_key k -> json_to_py (JObj l) = PDict d ->
  py_get_dict_item k d = match json_get k l with Some (p, j) => Some (p, json_to_py j) | None => None end.
Proof.
  intros k l d B H. change (json_to_py (JObj l)) with (PDict (fill l [])) in H. injection H as <-.
  rewrite py_get_dict_item_paths, json_get_paths by assumption. rewrite first_path_json.
  destruct (first_path (fun s => json_last s l) json_get_item (paths_of k)) as [[p j]|]; reflexivity.
Qed.
Print Assumptions C11_json_python_lookup.

(** Non-vacuity: an alias with two paths, the first of which does not resolve. *)
Definition ex_alias : alias_item := ALi [ALi [ASt (lit "a"); AIn 5]; ALi [ASt (lit "a"); AIn (-1); ASt (lit "b")]].
Definition ex_doc : list (str * json) :=
  [(lit "a", JNull); (lit "a", JArr [JInt 1; JObj [(lit "b", JInt 2); (lit "b", JInt 3)]]); (lit "x", JInt 9)].
Example C10_ex : exists c k p, collection_new (Some ex_alias) (lit "x") = BOk c /\ collection_select c true true = BOk k /\
  built_key k /\ json_get k ex_doc = Some (p, JInt 3) /\ length (lp_rest p) = 2 /\
  (exists d, json_to_py (JObj ex_doc) = PDict d /\ py_get_dict_item k d = Some (p, PInt 3)) /\
  (exists k', collection_select c false true = BOk k' /\ json_get k' ex_doc = Some ({| lp_first := lit "x"; lp_rest := [] |}, JInt 9)).
Proof.
  eexists. eexists. eexists. split; [reflexivity|]. split; [reflexivity|].
  split; [split; [repeat constructor; discriminate|discriminate]|]. split; [reflexivity|]. split; [reflexivity|]. split.
  - eexists; split; reflexivity.
  - eexists; split; reflexivity.
Qed.
Example C10_ex_attr : exists k, built_key k /\
  simple_py_get_attr (fun v s => match v with PObj _ attrs => match assoc s attrs with Some (PInt 0) => ARaise XTypeError | Some x => AVal x | None => AMissing end | _ => AMissing end) k
    (PObj 0 [(lit "b", PDict [(PStr (lit "k"), PInt 3)])]) = inl (Some ({| lp_first := lit "b"; lp_rest := [PiS (lit "k")] |}, PInt 3)) /\
  simple_py_get_attr (fun v s => match v with PObj _ attrs => match assoc s attrs with Some (PInt 0) => ARaise XTypeError | Some x => AVal x | None => AMissing end | _ => AMissing end) k
    (PObj 0 [(lit "a", PInt 0)]) = inr XTypeError.
Proof.
  exists (PathChoices [path_from_str (lit "a"); {| lp_first := lit "b"; lp_rest := [PiS (lit "k")] |}]).
  split; [split; [repeat constructor; discriminate|discriminate]|]. split; reflexivity.
Qed.
