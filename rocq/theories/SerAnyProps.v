(** Properties of serialize_as_any (C89). *)
From Coq Require Import List NArith ZArith Bool Lia.
From Verif Require Import Base Float64 Utf8 Decimal Values BytesCodec Filter FilterSpec FilterProps LookupKey Classes.
From Verif Require Import SerBase Ser SerInd SerSpec SerPure SerText SerWarn SerFieldsSpec SerFieldsProofs SerProps SerFieldsProps SerAnySpec SerAnyProofs.
Import ListNotations.
Open Scope nat_scope.

Lemma start_ok c json o : o_as_any o = true -> ok false (start c json o).
Proof. intros H. unfold ok, start. cbn. now rewrite H. Qed.

(** The classes that a schema names do not matter, at any depth. *)
Theorem C89_declared_classes E own defs s s' c json o v : o_as_any o = true -> own_alike E own -> defs_alike E defs -> alike false s s' ->
  to_python E s c json o v = to_python (with_schemas E own defs) s' c json o v /\
  to_json E s c o v = to_json (with_schemas E own defs) s' c o v.
Proof.
  intros A O D S. pose proof (same_build E own defs _ _ (same_levels E own defs O D ser_limit) s false s' S) as B.
  unfold to_python, to_json. rewrite (same_py _ _ _ B), (same_js _ _ _ B) by now apply start_ok. now split.
Qed.
Print Assumptions C89_declared_classes.

(** An instance of a class is written by the serializer of its own class, whatever class
    the schema names. *)
Lemma own_type E v n s c : class_of v = Some n -> ci_ser (e_class E n) = Some (s, c) -> get_type E v = TPydantic.
Proof. intros C O. assert (K : forall d, class_kind E n d = TPydantic) by (intros d; unfold class_kind; now rewrite O). destruct v; cbn in C; try discriminate; injection C as ->; apply K. Qed.
Lemma class_py E L s v inc exc x : class_schema s = true -> x_duck x = NeedsInference ->
  z_py (build E L s) v inc exc x = l_py L v inc exc (set_duck Inferred (set_model (Some v) x)).
Proof. intros C D. destruct s; try discriminate; cbn [build model_ser dataclass_ser simple z_py]; cbv zeta; rewrite D; reflexivity. Qed.
Lemma class_js E L s v inc exc x : class_schema s = true -> x_duck x = NeedsInference ->
  z_js (build E L s) v inc exc x = l_js L v inc exc (set_duck Inferred (set_model (Some v) x)).
Proof. intros C D. destruct s; try discriminate; cbn [build model_ser dataclass_ser simple z_js]; cbv zeta; rewrite D; reflexivity. Qed.
Lemma level_py_own E n v k s c inc exc x : class_of v = Some k -> ci_ser (e_class E k) = Some (s, c) -> enter v None x = Some (set_guard ((v, None) :: x_guard x) x) ->
  l_py (levels E (S n)) v inc exc x = z_py (build E (levels E n) s) v inc exc (nested_extra c (set_guard ((v, None) :: x_guard x) x)).
Proof.
  intros C O En. assert (Q : l_py (levels E (S n)) v inc exc x = match enter v None x with
     | Some x' => infer_py_body E (levels E n) (fun s => z_py (build E (levels E n) s)) v inc exc x' | None => guard_failed_py v x end).
  { cbn [levels]. unfold next_level. destruct (e_stack E); reflexivity. }
  rewrite Q, En. unfold infer_py_body. rewrite (own_type E v k s c C O). unfold own_serializer. rewrite C, O. cbn. now destruct (z_py _ _ _ _ _) as [w [a|e]].
Qed.
Lemma level_js_own E n v k s c inc exc x : class_of v = Some k -> ci_ser (e_class E k) = Some (s, c) -> enter v None x = Some (set_guard ((v, None) :: x_guard x) x) ->
  l_js (levels E (S n)) v inc exc x = z_js (build E (levels E n) s) v inc exc (nested_extra c (set_guard ((v, None) :: x_guard x) x)).
Proof.
  intros C O En. assert (Q : l_js (levels E (S n)) v inc exc x = match enter v None x with
     | Some x' => infer_js_body E (levels E n) (fun s => z_js (build E (levels E n) s)) v inc exc x' | None => guard_failed_js x end).
  { cbn [levels]. unfold next_level. destruct (e_stack E); reflexivity. }
  rewrite Q, En. unfold infer_js_body. rewrite (own_type E v k s c C O). unfold own_serializer. rewrite C, O. cbn. now destruct (z_js _ _ _ _ _) as [w [a|e]].
Qed.

Theorem C89_own_class E s c json o v n own own_config : o_as_any o = true -> class_schema s = true ->
  class_of v = Some n -> ci_ser (e_class E n) = Some (own, own_config) -> class_schema own = true ->
  to_python E s c json o v = to_python E own own_config json o v /\ to_json E s c o v = to_json E own own_config o v.
Proof.
  intros A S C O S'. unfold to_python, to_json, ser_limit.
  assert (D : forall c json, x_duck (start c json o) = NeedsInference) by (intros; cbn; now rewrite A).
  split.
  - rewrite !class_py by auto. now rewrite !(level_py_own E _ v n own own_config) by (auto; reflexivity).
  - rewrite !class_js by auto. now rewrite !(level_js_own E _ v n own own_config) by (auto; reflexivity).
Qed.
Print Assumptions C89_own_class.

(** What is written in JSON. *)
Record runs (o : options) (x : extra) : Prop := {
  r_alias : x_by_alias x = o_by_alias o; r_unset : x_exclude_unset x = o_exclude_unset o; r_defaults : x_exclude_defaults x = o_exclude_defaults o;
  r_none : x_exclude_none x = o_exclude_none o; r_unknown : x_serialize_unknown x = false; r_check : x_check x = CNone; r_duck : x_duck x = NeedsInference }.
Lemma none_ok : wf_top None /\ no_conflict None /\ wf_top None /\ no_conflict None.
Proof. repeat apply conj; exact I. Qed.
Lemma mapM_shown {A B} (R : A -> B -> Prop) (each : A -> M B) (P : A -> Prop) l : Forall P l -> (forall a b, P a -> snd (each a) = Good b -> R a b) ->
  forall r, snd (mapM each l) = Good r -> Forall2 R l r.
Proof.
  intros F H. induction F as [|a l Pa F IH]; intros r G; cbn [mapM] in G; [injection G as <-; constructor|].
  bg G b. bg G r'. injection G as <-. constructor; [now apply H|now apply IH].
Qed.
Lemma filtered_none {A} len (each : pyval -> incl -> incl -> M A) l : forall i, filtered any_filter None None len each i l = mapM (fun v => each v None None) l.
Proof.
  induction l as [|v l IH]; intros i; [reflexivity|]. cbn [filtered mapM].
  assert (Q : index_filter any_filter (Z.of_nat i) None None len = Ok (Some (None, None))) by reflexivity. rewrite Q.
  unfold bind at 1. cbn. rewrite IH. now destruct (bind (each v None None) _).
Qed.
Lemma inner_shown E v x o d fset i : x_exclude_unset x = o_exclude_unset o -> instance_dict E o v d fset ->
  snd (inner_value E false v x) = Good i -> i = as_dict (List.filter (fun kv => negb (o_exclude_unset o) || mem_str (fst kv) fset) d).
Proof.
  intros U [D S] H. unfold inner_value in H. rewrite D in H. bg H a. bg H a. bg H attrs. injection H as <-.
  unfold as_dict. f_equal. rewrite U in E0. destruct (o_exclude_unset o); cbn [negb orb].
  - rewrite S in E0 by reflexivity. cbn in E0. injection E0 as <-. rewrite <- (filter_set (fun k => mem_str k fset)). apply filter_ext_in. intros [k w] I.
    apply in_map_iff in I. destruct I as [[k' w'] [[= <- <-] _]]. cbn [fst]. apply mem_set.
  - injection E0 as <-. f_equal. symmetry. clear. induction d as [|a d IH]; [reflexivity|]. cbn. now rewrite IH.
Qed.
Lemma shown_run E o : o_include o = None -> o_exclude o = None -> forall m n s v j x, fits E o m s v -> runs o x ->
  snd (z_js (build E (levels E n) s) v None None x) = Good j -> shown E o s v j.
Proof.
  intros NI NE. induction m as [|m IH]; intros n s v j x Fi R G; [contradiction|]. cbn [fits] in Fi.
  destruct Fi as [Fi|[Fi|[Fi|[Fi|Fi]]]].
  - destruct (scalar_json s v) as [j'|] eqn:Sc; [|contradiction]. apply Shown_scalar. rewrite Sc. f_equal.
    destruct s; try discriminate; destruct v; try discriminate; cbn in Sc; injection Sc as <-; cbn in G; try (now injection G as <-).
    unfold to_str in G. destruct (forallb _ _); cbn in G; [now injection G as <-|discriminate].
  - destruct Fi as (s' & -> & Nn & Fi). apply Shown_nullable; [exact Nn|]. eapply IH; [exact Fi|exact R|]. cbn [build nullable_ser simple z_js] in G. destruct v; try exact G. contradiction.
  - destruct Fi as (d & s' & -> & Fi). apply Shown_default. eapply IH; [exact Fi|exact R|exact G].
  - destruct Fi as (s' & vs & -> & -> & Fi). cbn [build list_ser simple z_js down_list base] in G. bg G r. injection G as <-. rewrite filtered_none in E0.
    apply Shown_list. eapply mapM_shown; [exact Fi| |exact E0]. intros a b Fa Ga. cbv beta in Ga. eapply IH; eassumption.
  - destruct Fi as (Cs & fs & d & fset & Own & Inst & Fi). rewrite (class_js E _ s v None None x Cs (r_duck _ _ R)) in G.
    set (x1 := set_duck Inferred (set_model (Some v) x)) in *. destruct n as [|n].
    { exfalso. assert (Q : l_js (levels E 0) v None None x1 = guard_failed_js x1) by (cbn [levels]; unfold no_level; destruct (e_stack E); reflexivity).
      rewrite Q in G. unfold guard_failed_js in G. change (x_serialize_unknown x1) with (x_serialize_unknown x) in G. rewrite (r_unknown _ _ R) in G. discriminate. }
    unfold own_fields in Own. destruct (class_of v) as [k|] eqn:Ck; [|discriminate]. destruct (ci_ser (e_class E k)) as [[so c]|] eqn:Ok; [|discriminate].
    destruct (enter v None x1) as [x2|] eqn:En.
    2:{ exfalso. assert (Q : l_js (levels E (S n)) v None None x1 = guard_failed_js x1) by (cbn [levels]; unfold next_level; destruct (e_stack E); cbn [keyed l_js]; now rewrite En).
        rewrite Q in G. unfold guard_failed_js in G. change (x_serialize_unknown x1) with (x_serialize_unknown x) in G. rewrite (r_unknown _ _ R) in G. discriminate. }
    assert (X2 : x2 = set_guard ((v, None) :: x_guard x1) x1) by (unfold enter in En; destruct (existsb _ _); [discriminate|now injection En as <-]). subst x2.
    rewrite (level_js_own E n v k so c None None x1 Ck Ok En) in G.
    destruct so as [| | | | | | | | | | | | | | |cls inner he root| | | | | | | | | |]; try discriminate.
    destruct inner as [| | | | | | | | | | | | | |mode fs0 ex cs| | | | | | | | | | |]; try discriminate. destruct mode, ex, cs, he, root; try discriminate. injection Own as ->.
    cbn [build model_ser simple z_js] in G. cbv zeta in G. unfold x1 in G. cbn [nested_extra set_guard set_duck set_model x_duck next_mode is_inferred] in G.
    set (x3 := set_duck NeedsInference (set_model (Some v) (nested_extra c (set_guard ((v, None) :: x_guard x) (set_duck Inferred (set_model (Some v) x)))))) in *.
    assert (HG : class_allows E cls has_dict v x3 = true) by (unfold class_allows; cbn; unfold has_dict; now rewrite (proj1 Inst)).
    change (snd (if class_allows E cls has_dict v x3 then bind (inner_value E false v x3) (fun i => z_js (fields_ser E (levels E n) SimpleDict
       (map (fun kf => (fst kf, map_field (build E (levels E n)) (snd kf))) fs) None []) i None None x3) else fall_js (levels E n) v None None x3) = Good j) in G.
    rewrite HG in G. bg G i.
    assert (R3 : runs o x3) by (destruct R; constructor; cbn; auto).
    apply (inner_shown E v x3 o d fset i (r_unset _ _ R3) Inst) in E0. subst i. cbn [z_js fields_ser extract_dicts down_dict base as_dict] in G.
    assert (HT : td_inferred x3 = false) by reflexivity. rewrite HT in G. bg G a. bg G b. bg G e. injection G as <-. cbn [comp_to_json model_or x3] in *.
    assert (e = []) as -> by (unfold comp_to_json, model_or in E1; cbn in E1; destruct (x_round_trip x); cbn in E1; now injection E1 as <-). rewrite !app_nil_r.
    rewrite items_as_dict in E0. apply main_js_spec in E0; [|reflexivity|exact none_ok].
    apply Shown_class with fs d fset; [exact Cs|unfold own_fields; now rewrite Ck, Ok|exact Inst|].
    assert (K : List.filter (keep (set_model (Some v) x3) None None) (entries fs (List.filter (fun kv => negb (o_exclude_unset o) || mem_str (fst kv) fset) d))
                = List.filter (fun n => negb (omitted o fset n)) (entries fs d)).
    { rewrite (entries_set fs (fun k => negb (o_exclude_unset o) || mem_str k fset)). generalize (entries fs d). intros l. induction l as [|e l IHl]; [reflexivity|]. cbn [List.filter].
      assert (Q : negb (omitted o fset e) = (negb (o_exclude_unset o) || mem_str (n_name e) fset) && keep (set_model (Some v) x3) None None e).
      { unfold omitted, keep. change (x_exclude_none (set_model (Some v) x3)) with (x_exclude_none x3). change (x_exclude_defaults (set_model (Some v) x3)) with (x_exclude_defaults x3).
        rewrite (r_none _ _ R3), (r_defaults _ _ R3), NI, NE. cbn [included excluded]. destruct (o_exclude_unset o), (mem_str (n_name e) fset); reflexivity. }
      rewrite Q. destruct (negb (o_exclude_unset o) || mem_str (n_name e) fset); cbn [andb]; [|exact IHl]. cbn [List.filter]. destruct (keep _ _ _ e); now rewrite IHl. }
    match type of E0 with context [set_model (model_or ?q x3) x3] => change (set_model (model_or q x3) x3) with (set_model (Some v) x3) in E0 end. rewrite K in E0.
    assert (Fi' : Forall (fun e => fits E o m (n_ser e) (n_value e)) (List.filter (fun n => negb (omitted o fset n)) (entries fs d))).
    { apply Forall_forall. intros e I. apply filter_In in I. exact (proj1 (Forall_forall _ _) Fi e (proj1 I)). }
    clear K Fi. revert Fi'. induction E0 as [|kj e l l' W F2 IHf]; intros Fi'; constructor; inversion Fi'; subst; [|now apply IHf].
    destruct W as [W1 (i & e' & W2 & W3)]. split.
    + rewrite W1. unfold name_of, out_key, written_name, by_alias_or. change (x_by_alias (set_model (Some v) x3)) with (x_by_alias x3). now rewrite (r_alias _ _ R3).
    + assert (Q : i = None /\ e' = None) by (cbn in W2; now injection W2 as <- <-). destruct Q as [-> ->].
      eapply IH; [eassumption| |exact W3]. destruct R3; constructor; assumption.
Qed.
Theorem C89_written E o c n s v j ws : o_as_any o = true -> o_include o = None -> o_exclude o = None -> fits E o n s v ->
  to_json E s c o v = Returned j ws -> shown E o s v j.
Proof.
  intros A NI NE F H. apply final_good in H. rewrite NI, NE in H. eapply shown_run; [exact NI|exact NE|exact F| |exact H].
  constructor; cbn; auto. now rewrite A.
Qed.
Print Assumptions C89_written.

(** ** Cases *)
Definition as_any (b : bool) (o : options) : options :=
  {| o_by_alias := o_by_alias o; o_exclude_unset := o_exclude_unset o; o_exclude_defaults := o_exclude_defaults o; o_exclude_none := o_exclude_none o;
     o_round_trip := o_round_trip o; o_warnings := o_warnings o; o_fallback := o_fallback o; o_as_any := b; o_include := None; o_exclude := None |}.
Definition parent_ser : ser := SerModel 1 (SerFields SimpleDict [(lit "x", fld None SerInt)] None []) false false.
Definition child_ser : ser := SerModel 2 (SerFields SimpleDict [(lit "x", fld None SerInt); (lit "y", fld (Some (lit "Y")) SerStr)] None []) false false.
(** A model with a field for a parent and a list of parents; [item] is the schema of the field. *)
Definition box_ser (item : ser) : ser :=
  SerModel 3 (SerFields SimpleDict [(lit "item", fld None item); (lit "all", fld None (SerList any_filter item))] None []) false false.
(** A model and a dataclass with a computed field. *)
Definition comp_model : ser := SerModel 4 (SerFields SimpleDict [] None [cfld (lit "p") parent_ser]) false false.
Definition comp_dc : ser := SerDataclass 5 (SerFields SimpleDict [] None [cfld (lit "p") parent_ser]) [].
Definition child : pyval := PObj 2 [(dunder_dict, as_dict [(lit "x", PInt 1); (lit "y", PStr (lit "hi"))])].
Definition box : pyval := PObj 3 [(dunder_dict, as_dict [(lit "item", child); (lit "all", PList [child])])].
Definition any_classes (item : ser) (n : N) : class_info :=
  let own s := {| ci_ser := Some (s, conf); ci_dataclass := None; ci_enum := false |} in
  if N.eqb n 1 then own parent_ser else if N.eqb n 2 then own child_ser else if N.eqb n 3 then own (box_ser item)
  else if N.eqb n 4 then own comp_model else if N.eqb n 5 then {| ci_ser := Some (comp_dc, conf); ci_dataclass := Some []; ci_enum := false |} else plain.
Definition E_any (item : ser) : env :=
  {| e_class := any_classes item; e_sub := fun a b => N.eqb a b || (N.eqb a 2 && N.eqb b 1); e_def := fun _ => None; e_str := fun _ => None; e_hash := fun _ => true;
     e_prop := fun _ n => if str_eqb n (lit "p") then Some child else None; e_ryu := ex_ryu; e_stack := 5 |}.
Definition child_json : json := JObj [(lit "x", JInt 1); (lit "Y", JStr (lit "hi"))].
Example C89_ex :
  to_json (E_any parent_ser) (box_ser parent_ser) conf (as_any true opts) box = Returned (JObj [(lit "item", child_json); (lit "all", JArr [child_json])]) [] /\
  to_json (E_any parent_ser) (box_ser parent_ser) conf (as_any false opts) box
    = Returned (JObj [(lit "item", JObj [(lit "x", JInt 1)]); (lit "all", JArr [JObj [(lit "x", JInt 1)]])]) [] /\
  fits (E_any parent_ser) (as_any true opts) 4 (box_ser parent_ser) box.
Proof.
  split; [vm_compute; reflexivity|]. split; [vm_compute; reflexivity|].
  assert (C : forall n, fits (E_any parent_ser) (as_any true opts) (S (S n)) parent_ser child).
  { intros n. do 4 right. split; [reflexivity|]. exists [(lit "x", fld None SerInt); (lit "y", fld (Some (lit "Y")) SerStr)], [(lit "x", PInt 1); (lit "y", PStr (lit "hi"))], [].
    split; [reflexivity|]. split; [split; [reflexivity|discriminate]|]. constructor; [left; discriminate|]. constructor; [left; discriminate|constructor]. }
  do 4 right. split; [reflexivity|]. exists [(lit "item", fld None parent_ser); (lit "all", fld None (SerList any_filter parent_ser))], [(lit "item", child); (lit "all", PList [child])], [].
  split; [reflexivity|]. split; [split; [reflexivity|discriminate]|]. constructor; [exact (C 1)|]. constructor; [|constructor].
  do 3 right. left. exists parent_ser, [child]. split; [reflexivity|]. split; [reflexivity|]. constructor; [exact (C 0)|constructor].
Qed.
(** A box declared with fields for another class writes the same. *)
Example C89_ex_alike : alike false (box_ser parent_ser) child_ser /\
  own_alike (E_any parent_ser) (fun n => ci_ser (any_classes comp_dc n)) /\
  defs_alike (E_any parent_ser) (fun _ => None) /\
  to_json (with_schemas (E_any parent_ser) (fun n => ci_ser (any_classes comp_dc n)) (fun _ => None)) child_ser conf (as_any true opts) box
    = Returned (JObj [(lit "item", child_json); (lit "all", JArr [child_json])]) [].
Proof.
  split; [cbn; discriminate|]. split; [|split; [intros k; exact I|vm_compute; reflexivity]].
  intros n. cbn [E_any e_class]. unfold any_classes. cbv zeta.
  assert (P : alike false parent_ser comp_dc) by reflexivity. assert (R : alike true parent_ser parent_ser) by (cbn; tauto).
  destruct (N.eqb n 1); [split; [reflexivity|exact R]|]. destruct (N.eqb n 2); [split; [reflexivity|cbn; tauto]|].
  destruct (N.eqb n 3); [split; [reflexivity|cbn; tauto]|]. destruct (N.eqb n 4); [split; [reflexivity|cbn; tauto]|].
  destruct (N.eqb n 5); [split; [reflexivity|cbn; tauto]|]. exact I.
Qed.

(** Where the schema says Any, an instance is not written by its class's serializer: the
    class's serializer infers again and meets the recursion guard.  In Python mode the
    instance itself is returned, in JSON mode the call raises. *)
Theorem C89_any_refuted :
  to_json (E_any parent_ser) SerAny conf (as_any false opts) child = Returned child_json [] /\
  to_json (E_any parent_ser) SerAny conf (as_any true opts) child = Raised /\
  to_python (E_any parent_ser) SerAny conf false (as_any false opts) child = Returned (PDict [(PStr (lit "x"), PInt 1); (PStr (lit "Y"), PStr (lit "hi"))]) [] /\
  to_python (E_any parent_ser) SerAny conf false (as_any true opts) child = Returned child [] /\
  to_json (E_any SerAny) (box_ser SerAny) conf (as_any false opts) box = Returned (JObj [(lit "item", child_json); (lit "all", JArr [child_json])]) [] /\
  to_json (E_any SerAny) (box_ser SerAny) conf (as_any true opts) box = Raised.
Proof. repeat apply conj; vm_compute; reflexivity. Qed.
Print Assumptions C89_any_refuted.
(** A computed field of a dataclass is written as its declared class, that of a model as
    the class of its value. *)
Theorem C89_computed_refuted :
  let dc := PObj 5 [] in let model := PObj 4 [(dunder_dict, PDict [])] in
  to_json (E_any parent_ser) comp_model conf (as_any true opts) model = Returned (JObj [(lit "p", child_json)]) [] /\
  to_json (E_any parent_ser) comp_dc conf (as_any true opts) dc = Returned (JObj [(lit "p", JObj [(lit "x", JInt 1)])]) [].
Proof. split; vm_compute; reflexivity. Qed.
Print Assumptions C89_computed_refuted.
