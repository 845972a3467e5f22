(** Properties of serialized fields (C47), unions (C50) and tuple keys (C57). *)
From Coq Require Import List NArith ZArith Bool Lia.
From Verif Require Import Base Float64 Utf8 Decimal Values BytesCodec Filter FilterSpec FilterProps LookupKey Classes.
From Verif Require Import SerBase Ser SerInd SerSpec SerPure SerText SerWarn SerFieldsSpec SerFieldsProofs SerProps.
Import ListNotations.
Open Scope nat_scope.

(** ** C47: the fields of a model *)

(** The filters that reach the value of a field, and its serializer's result. *)
Definition field_json (E : env) (c : config) (o : options) (model : pyval) (n : entry) (j : json) : Prop :=
  exists i e, filter any_filter (KStr (n_name n)) (o_include o) (o_exclude o) = Ok (Some (i, e)) /\
    snd (z_js (build E (levels E ser_limit) (n_ser n)) (n_value n) i e (set_model (Some model) (start c true o))) = Good j.
Definition field_python (E : env) (c : config) (json : bool) (o : options) (model : pyval) (n : entry) (p : pyval) : Prop :=
  exists i e, filter any_filter (KStr (n_name n)) (o_include o) (o_exclude o) = Ok (Some (i, e)) /\
    snd (z_py (build E (levels E ser_limit) (n_ser n)) (n_value n) i e (set_model (Some model) (start c json o))) = Good p.

Definition computed_json (E : env) (c : config) (o : options) (model : pyval) (cf : computed ser) (j : json) : Prop :=
  exists w i e, get_attr E model (cf_name cf) = Some w /\ filter any_filter (KStr (cf_name cf)) (o_include o) (o_exclude o) = Ok (Some (i, e)) /\
    snd (z_js (build E (levels E ser_limit) (cf_ser cf)) w i e (set_model (Some model) (start c true o))) = Good j.
Definition computed_python (E : env) (c : config) (json : bool) (o : options) (model : pyval) (cf : computed ser) (p : pyval) : Prop :=
  exists w i e, get_attr E model (cf_name cf) = Some w /\ filter any_filter (KStr (cf_name cf)) (o_include o) (o_exclude o) = Ok (Some (i, e)) /\
    snd (z_py (build E (levels E ser_limit) (cf_ser cf)) w i e (set_model (Some model) (start c json o))) = Good p.

Lemma mem_set k l : existsb (fun y => py_eq y (PStr k)) (map PStr l) = mem_str k l.
Proof. induction l as [|a l IH]; [reflexivity|]. cbn [map existsb]. rewrite IH. unfold mem_str. cbn [existsb]. f_equal. apply (str_eqb_sym a k). Qed.
Lemma entries_set fs (p : str -> bool) d :
  entries fs (List.filter (fun kv => p (fst kv)) d) = List.filter (fun n => p (n_name n)) (entries fs d).
Proof.
  induction d as [|[k v] d IH]; [reflexivity|]. cbn [List.filter fst].
  set (hd := match assoc k fs with
             | Some f => match f_ser f with Some s => [{| n_name := k; n_field := f; n_ser := s; n_value := v |}] | None => [] end
             | None => [] end).
  assert (H : forall d', entries fs ((k, v) :: d') = hd ++ entries fs d') by reflexivity.
  assert (HF : List.filter (fun n => p (n_name n)) hd = if p k then hd else []).
  { unfold hd. destruct (assoc k fs) as [f|]; [|now destruct (p k)]. destruct (f_ser f); cbn; now destruct (p k). }
  rewrite H, filter_app, HF, <- IH. destruct (p k); [apply H|reflexivity].
Qed.
Lemma filter_set (p : str -> bool) d :
  List.filter (fun kv : pyval * pyval => match fst kv with PStr k => p k | _ => false end) (map (fun kv => (PStr (fst kv), snd kv)) d)
  = map (fun kv => (PStr (fst kv), snd kv)) (List.filter (fun kv => p (fst kv)) d).
Proof. induction d as [|[k v] d IH]; [reflexivity|]. cbn. destruct (p k); cbn; now rewrite IH. Qed.

Lemma inner_good E v o c json d fset i : dict_attr v = Some (as_dict d) ->
  (o_exclude_unset o = true -> get_attr E v dunder_fields_set = Some (PSet (map PStr fset))) ->
  snd (inner_value E false v (set_model (Some v) (start c json o))) = Good i ->
  i = as_dict (List.filter (fun kv => negb (o_exclude_unset o) || mem_str (fst kv) fset) d).
Proof.
  intros D S H. unfold inner_value in H. rewrite D in H. bg H a. bg H a. bg H attrs. injection H as <-.
  unfold as_dict. f_equal. cbn [x_exclude_unset set_model start] in E0. destruct (o_exclude_unset o); cbn [negb orb].
  - rewrite S in E0 by reflexivity. cbn in E0. injection E0 as <-. rewrite <- (filter_set (fun k => mem_str k fset)). apply filter_ext_in. intros [k w] I.
    apply in_map_iff in I. destruct I as [[k' w'] [[= <- <-] _]]. cbn [fst]. apply mem_set.
  - injection E0 as <-. f_equal. symmetry. clear. induction d as [|a d IH]; [reflexivity|]. cbn. now rewrite IH.
Qed.

Lemma start_model c json o v : o_as_any o = false ->
  set_duck (next_mode (x_duck (start c json o))) (set_model (Some v) (start c json o)) = set_model (Some v) (start c json o).
Proof. intros A. unfold set_duck, set_model, start. cbn. now rewrite A. Qed.
Lemma keep_omitted fs c json o v fset d :
  List.filter (keep (set_model (Some v) (start c json o)) (o_include o) (o_exclude o))
    (entries fs (List.filter (fun kv => negb (o_exclude_unset o) || mem_str (fst kv) fset) d))
  = List.filter (fun n => negb (omitted o fset n)) (entries fs d).
Proof.
  rewrite (entries_set fs (fun k => negb (o_exclude_unset o) || mem_str k fset)).
  generalize (entries fs d). intros l. induction l as [|n l IH]; [reflexivity|]. cbn [List.filter].
  assert (Q : negb (omitted o fset n) = (negb (o_exclude_unset o) || mem_str (n_name n) fset) && keep (set_model (Some v) (start c json o)) (o_include o) (o_exclude o) n).
  { unfold omitted, keep. cbn [x_exclude_none x_exclude_defaults set_model start]. destruct (o_exclude_unset o), (mem_str (n_name n) fset); reflexivity. }
  rewrite Q. destruct (negb (o_exclude_unset o) || mem_str (n_name n) fset); cbn [andb]; [|exact IH]. cbn [List.filter]. destruct (keep _ _ _ n); now rewrite IH.
Qed.
Lemma written c json o v n : name_of (set_model (Some v) (start c json o)) n = written_name o n.
Proof. reflexivity. Qed.

(** What is written: the fields of the instance that are not left out, in order, under their
    name or alias, each as its serializer writes it; then the computed fields likewise. *)
Definition writes_fields {V} (o : options) (fields_set : list str) (fs : list (str * field ser)) (d : list (str * pyval))
  (value : entry -> V -> Prop) (l : list (str * V)) : Prop :=
  Forall2 (fun kv n => fst kv = written_name o n /\ value n (snd kv)) l
    (List.filter (fun n => negb (omitted o fields_set n)) (entries fs d)).
Definition is_none_attr (E : env) (v : pyval) (cf : computed ser) : bool :=
  match get_attr E v (cf_name cf) with Some PNone => true | _ => false end.
Definition writes_computed {V} (o : options) (cs : list (computed ser)) (left_out : computed ser -> bool)
  (value : computed ser -> V -> Prop) (l : list (str * V)) : Prop :=
  Forall2 (fun kv cf => fst kv = computed_name o cf /\ value cf (snd kv)) l
    (List.filter (fun cf => computed_kept o cf && negb (left_out cf)) cs).
(** A dict made of items in order. *)
Definition dict_of (l : list (str * pyval)) : pyval := PDict (fold_left (fun a kv => dict_set (PStr (fst kv)) (snd kv) a) l []).

Lemma filters o : filters_ok o -> wf_top (o_include o) /\ no_conflict (o_include o) /\ wf_top (o_exclude o) /\ no_conflict (o_exclude o).
Proof. exact (fun H => H). Qed.
Lemma comp_js_good E L c o v cs l : filters_ok o ->
  snd (comp_to_json E (map (map_computed (build E L)) cs) (Some v) (o_include o) (o_exclude o) (set_model (Some v) (start c true o))) = Good l ->
  writes_computed o cs (fun cf => o_exclude_none o && is_none_attr E v cf)
    (fun cf j => exists w i e, get_attr E v (cf_name cf) = Some w /\ filter any_filter (KStr (cf_name cf)) (o_include o) (o_exclude o) = Ok (Some (i, e)) /\
       snd (z_js (build E L (cf_ser cf)) w i e (set_model (Some v) (start c true o))) = Good j) l.
Proof.
  intros F H. unfold comp_to_json in H. cbn [x_round_trip set_model start] in H. unfold writes_computed, computed_kept.
  destruct (o_round_trip o).
  - injection H as <-. cbn [negb andb]. induction cs; [constructor|assumption].
  - apply comp_js_spec in H; [|exact F]. exact H.
Qed.
Lemma comp_py_good E L c json o v cs d0 r : filters_ok o ->
  snd (comp_to_python E (map (map_computed (build E L)) cs) (Some v) d0 (o_include o) (o_exclude o) (set_model (Some v) (start c json o))) = Good r ->
  exists l, writes_computed o cs (fun _ => false)
    (fun cf p => exists w i e, get_attr E v (cf_name cf) = Some w /\ filter any_filter (KStr (cf_name cf)) (o_include o) (o_exclude o) = Ok (Some (i, e)) /\
       snd (z_py (build E L (cf_ser cf)) w i e (set_model (Some v) (start c json o))) = Good p) l /\
    r = fold_left (fun a kv => dict_set (PStr (fst kv)) (snd kv) a) (List.filter (fun kv => negb (o_exclude_none o && is_py_none (snd kv))) l) d0.
Proof.
  intros F H. unfold comp_to_python in H. cbn [x_round_trip set_model start] in H. unfold writes_computed, computed_kept.
  destruct (o_round_trip o).
  - injection H as <-. exists []. split; [|reflexivity]. cbn [negb andb]. induction cs; [constructor|assumption].
  - apply comp_py_spec in H; [|exact F]. destruct H as [l [A B]]. exists l. split; [|exact B].
    erewrite filter_ext; [exact A|]. intros cf. cbn [negb andb]. now rewrite andb_true_r.
Qed.

Section C47.
Variables (E : env) (cls : N) (fs : list (str * field ser)) (ex : option ser) (cs : list (computed ser)).
Variables (c : config) (o : options) (v : pyval) (d : list (str * pyval)) (fields_set : list str).
Hypothesis F : filters_ok o.
Hypothesis A : o_as_any o = false.
(** The instance: its attributes in order and, with exclude_unset, the set of the names of
    its fields that were set. *)
Hypothesis D : dict_attr v = Some (as_dict d).
Hypothesis S : o_exclude_unset o = true -> get_attr E v dunder_fields_set = Some (PSet (map PStr fields_set)).
Definition model_schema : ser := SerModel cls (SerFields SimpleDict fs ex cs) false false.

Theorem C47_model_to_json j ws : to_json E model_schema c o v = Returned j ws ->
  exists l l', j = JObj (l ++ l') /\ writes_fields o fields_set fs d (field_json E c o v) l /\
    writes_computed o cs (fun cf => o_exclude_none o && is_none_attr E v cf) (computed_json E c o v) l'.
Proof.
  intros H. apply final_good in H. unfold model_schema in H. cbn [build model_ser simple z_js] in H. cbv zeta in H. rewrite (start_model c true o v A) in H.
  assert (HI : is_inferred (x_duck (set_model (Some v) (start c true o))) = false) by (cbn; now rewrite A).
  rewrite HI in H. assert (HC : class_allows E cls has_dict v (set_model (Some v) (start c true o)) = true) by (cbn; unfold has_dict; now rewrite D).
  rewrite HC in H. bg H i. apply (inner_good E v o c true d fields_set i D S) in E0. subst i. cbn [z_js fields_ser extract_dicts down_dict base as_dict] in H.
  assert (HT : td_inferred (set_model (Some v) (start c true o)) = false) by reflexivity. rewrite HT in H. bg H a. bg H b. bg H e. injection H as <-.
  exists a, e. split; [reflexivity|]. rewrite items_as_dict in E0. apply main_js_spec in E0; [|reflexivity|exact F].
  split; [unfold writes_fields; rewrite <- (keep_omitted fs c true o v fields_set d); exact E0|]. apply comp_js_good in E1; [exact E1|exact F].
Qed.

Theorem C47_model_to_python json p ws : to_python E model_schema c json o v = Returned p ws ->
  exists l l', p = dict_of (l ++ List.filter (fun kv => negb (o_exclude_none o && is_py_none (snd kv))) l') /\
    writes_fields o fields_set fs d (field_python E c json o v) l /\
    writes_computed o cs (fun _ => false) (computed_python E c json o v) l'.
Proof.
  intros H. apply final_good in H. unfold model_schema in H. cbn [build model_ser simple z_py] in H. cbv zeta in H. rewrite (start_model c json o v A) in H.
  assert (HI : is_inferred (x_duck (set_model (Some v) (start c json o))) = false) by (cbn; now rewrite A).
  rewrite HI in H. assert (HC : class_allows E cls has_dict v (set_model (Some v) (start c json o)) = true) by (cbn; unfold has_dict; now rewrite D).
  rewrite HC in H. bg H i. apply (inner_good E v o c json d fields_set i D S) in E0. subst i. cbn [z_py fields_ser extract_dicts down_dict base as_dict] in H.
  assert (HT : td_inferred (set_model (Some v) (start c json o)) = false) by reflexivity. rewrite HT in H. bg H a. bg H b. bg H e. injection H as <-.
  unfold main_to_python in E0. bg E0 r. rewrite items_as_dict in E2. apply main_py_spec in E2; [|reflexivity|exact F].
  destruct E2 as [l [P Q]]. 
  destruct (_ && _) in E0; [discriminate|]. injection E0 as <-. apply comp_py_good in E1; [|exact F]. destruct E1 as [l' [R T]].
  exists l, l'. split; [|split; [unfold writes_fields; rewrite <- (keep_omitted fs c json o v fields_set d); exact Q|exact R]]. unfold dict_of. rewrite fold_left_app, <- P. now rewrite T.
Qed.
End C47.
Print Assumptions C47_model_to_json.
Print Assumptions C47_model_to_python.

(** When no two of the names are equal the dict has exactly the items listed, in order. *)
Lemma dict_set_fresh k p d : existsb (fun kv => py_eq (fst kv) k) d = false -> dict_set k p d = d ++ [(k, p)].
Proof.
  induction d as [|[k' p'] d IH]; [reflexivity|]. cbn [existsb fst dict_set app]. destruct (py_eq k' k); [discriminate|]. intros H. now rewrite IH.
Qed.
Theorem C47_dict_of l : NoDup (map fst l) -> dict_of l = PDict (map (fun kv => (PStr (fst kv), snd kv)) l).
Proof.
  intros N. unfold dict_of. f_equal.
  assert (G : forall l d0, NoDup (map fst l) -> (forall k, In k (map fst l) -> existsb (fun kv => py_eq (fst kv) (PStr k)) d0 = false) ->
    fold_left (fun a kv => dict_set (PStr (fst kv)) (snd kv) a) l d0 = d0 ++ map (fun kv => (PStr (fst kv), snd kv)) l).
  { clear. induction l as [|[k p] l IH]; intros d0 N D; cbn [fold_left map]; [now rewrite app_nil_r|]. inversion N as [|? ? NI N']; subst. cbn [fst snd].
    rewrite dict_set_fresh by (apply D; now left). rewrite IH; [now rewrite <- app_assoc|exact N'|].
    intros k' I. rewrite existsb_app. rewrite (D k') by (now right). cbn. rewrite orb_false_r. 
    destruct (str_eqb k k') eqn:Q; [|reflexivity]. exfalso. apply str_eqb_eq in Q. subst k'. now apply NI. }
  now rewrite G.
Qed.
Print Assumptions C47_dict_of.

(** ** Dataclasses: the fields are read from the instance by name, exclude_unset leaves
    nothing out. *)
Section C47_dataclass.
Variables (E : env) (cls : N) (fs : list (str * field ser)) (ex : option ser) (names : list str).
Variables (c : config) (o : options) (v : pyval).
Hypothesis F : filters_ok o.
Hypothesis A : o_as_any o = false.
Hypothesis I : has_dataclass_fields E v = true.
Definition dataclass_schema : ser := SerDataclass cls (SerFields SimpleDict fs ex []) names.
(** The values of the fields. *)
Definition values_of (d : list (str * pyval)) : Prop := map fst d = names /\ Forall (fun kv => get_attr E v (fst kv) = Some (snd kv)) d.

Lemma js_values bfs inc exc x ns : forall l, snd (main_to_json (levels E ser_limit) SimpleDict bfs (known_items E ns v) inc exc x) = Good l ->
  exists d, map fst d = ns /\ Forall (fun kv => get_attr E v (fst kv) = Some (snd kv)) d /\ known_items E ns v = pitems d.
Proof.
  induction ns as [|n ns IH]; intros l H; [exists []; repeat split; constructor|].
  cbn [known_items map main_to_json] in H. bg H w. destruct (get_attr E v n) as [w'|] eqn:G; [injection E0 as ->|discriminate].
  assert (X : exists l', snd (main_to_json (levels E ser_limit) SimpleDict bfs (known_items E ns v) inc exc x) = Good l').
  { fold (known_items E ns v) in H. destruct (x_exclude_none x && is_py_none w); [eauto|]. bg H ks. bg H o1. destruct o1 as [[ni ne]|]; [|eauto].
    destruct (assoc ks bfs) as [f|]; [|cbn in H; eauto]. destruct (f_ser f) as [s|]; [|eauto]. destruct (is_default w x s); [eauto|].
    bg H j. bg H r. eauto. }
  destruct X as [l' X]. destruct (IH l' X) as [d [P [Q R]]]. exists ((n, w) :: d). cbn [map fst known_items pitems snd]. rewrite P, G.
  repeat split; [constructor; assumption|]. f_equal. exact R.
Qed.
Lemma py_values bfs bex inc exc x ns : forall d0 n0 l, snd (main_py_loop (levels E ser_limit) SimpleDict bfs bex inc exc x (known_items E ns v) d0 n0) = Good l ->
  exists d, map fst d = ns /\ Forall (fun kv => get_attr E v (fst kv) = Some (snd kv)) d /\ known_items E ns v = pitems d.
Proof.
  induction ns as [|n ns IH]; intros d0 n0 l H; [exists []; repeat split; constructor|].
  cbn [known_items map main_py_loop] in H. bg H w. destruct (get_attr E v n) as [w'|] eqn:G; [injection E0 as ->|discriminate].
  assert (X : exists d0 n0 l', snd (main_py_loop (levels E ser_limit) SimpleDict bfs bex inc exc x (known_items E ns v) d0 n0) = Good l').
  { fold (known_items E ns v) in H. bg H ks. cbv zeta in H. destruct (x_exclude_none x && is_py_none w); [eauto|]. bg H o1. destruct o1 as [[ni ne]|]; [|eauto].
    destruct (assoc ks bfs) as [f|].
    - destruct (f_ser f) as [s|]; [|eauto]. destruct (is_default w x s); [eauto|]. bg H j. bg H r. eauto.
    - cbn in H. destruct (is_strict (x_check x)); [discriminate|eauto]. }
  destruct X as [d1 [n1 [l' X]]]. destruct (IH d1 n1 l' X) as [d [P [Q R]]]. exists ((n, w) :: d). cbn [map fst known_items pitems snd]. rewrite P, G.
  repeat split; [constructor; assumption|]. f_equal. exact R.
Qed.
Lemma keep_omitted_all json d :
  List.filter (keep (set_model (Some v) (start c json o)) (o_include o) (o_exclude o)) (entries fs d)
  = List.filter (fun n => negb (omitted o (map fst d) n)) (entries fs d).
Proof.
  rewrite <- (keep_omitted fs c json o v (map fst d) d). f_equal. f_equal. symmetry.
  assert (G : forall q, (forall kv, In kv d -> q kv = true) -> List.filter q d = d).
  { clear. intros q. induction d as [|a d IH]; intros H; [reflexivity|]. cbn. rewrite (H a) by (now left). f_equal. apply IH. intros kv Hk. apply H. now right. }
  apply G. intros kv Hk. apply orb_true_iff. right. unfold mem_str. apply existsb_exists. exists (fst kv). split; [now apply in_map|apply str_eqb_refl].
Qed.

Theorem C47_dataclass_to_json j ws : to_json E dataclass_schema c o v = Returned j ws ->
  exists d l, values_of d /\ j = JObj l /\ writes_fields o names fs d (field_json E c o v) l.
Proof.
  intros H. apply final_good in H. unfold dataclass_schema in H. cbn [build dataclass_ser simple z_js] in H. cbv zeta in H. rewrite (start_model c true o v A) in H.
  assert (HI : is_inferred (x_duck (set_model (Some v) (start c true o))) = false) by (cbn; now rewrite A).
  rewrite HI in H. assert (HC : class_allows E cls (has_dataclass_fields E) v (set_model (Some v) (start c true o)) = true) by exact I.
  rewrite HC in H. cbn [z_main fields_ser m_js m_comp_js] in H. bg H a. bg H b.
  assert (b = []) as -> by (unfold comp_to_json in E1; cbn in E1; destruct (o_round_trip o); now injection E1 as <-).
  injection H as <-. destruct (js_values _ _ _ _ _ _ E0) as [d [P [Q R]]]. rewrite R in E0. apply main_js_spec in E0; [|reflexivity|exact F].
  exists d, a. split; [now split|]. split; [now rewrite app_nil_r|]. unfold writes_fields. rewrite <- P, <- (keep_omitted_all true d). exact E0.
Qed.
Theorem C47_dataclass_to_python json p ws : to_python E dataclass_schema c json o v = Returned p ws ->
  exists d l, values_of d /\ p = dict_of l /\ writes_fields o names fs d (field_python E c json o v) l.
Proof.
  intros H. apply final_good in H. unfold dataclass_schema in H. cbn [build dataclass_ser simple z_py] in H. cbv zeta in H. rewrite (start_model c json o v A) in H.
  assert (HI : is_inferred (x_duck (set_model (Some v) (start c json o))) = false) by (cbn; now rewrite A).
  rewrite HI in H. assert (HC : class_allows E cls (has_dataclass_fields E) v (set_model (Some v) (start c json o)) = true) by exact I.
  rewrite HC in H. cbn [z_main fields_ser m_py m_comp_py] in H. bg H a. bg H b.
  assert (b = a) as -> by (unfold comp_to_python in E1; cbn in E1; destruct (o_round_trip o); now injection E1 as <-).
  injection H as <-. unfold main_to_python in E0. bg E0 r. destruct (_ && _) in E0; [discriminate|]. injection E0 as <-.
  destruct (py_values _ _ _ _ _ _ _ _ _ E2) as [d [P [Q R]]]. rewrite R in E2. apply main_py_spec in E2; [|reflexivity|exact F].
  destruct E2 as [l [T U]]. exists d, l. split; [now split|]. split; [now rewrite T|]. unfold writes_fields. rewrite <- P, <- (keep_omitted_all json d). exact U.
Qed.
End C47_dataclass.
Print Assumptions C47_dataclass_to_json.
Print Assumptions C47_dataclass_to_python.

(** ** C57: tuple keys *)

Lemma join_spec ks : key_join ks = comma_joined ks.
Proof.
  unfold key_join. destruct ks as [|k ks]; [reflexivity|]. cbn [fold_left]. unfold key_push at 2. cbn [fst snd app].
  revert k. induction ks as [|a ks IH]; intros k; [reflexivity|]. cbn [fold_left]. unfold key_push at 2. cbn [fst snd].
  change (comma_joined (k :: a :: ks)) with (k ++ lit "," ++ comma_joined (a :: ks)). rewrite <- IH.
  assert (G : forall p q, fst (fold_left key_push ks (p ++ q, false)) = p ++ fst (fold_left key_push ks (q, false))).
  { clear. induction ks as [|b ks IH]; intros p q; [reflexivity|]. cbn [fold_left]. unfold key_push at 2 4. cbn [fst snd]. rewrite <- app_assoc. apply IH. }
  rewrite G. f_equal. rewrite <- G. reflexivity.
Qed.
Lemma lossy_scalars s : forallb scalar s = true -> lossy s = s.
Proof. induction s as [|c s IH]; [reflexivity|]. cbn. intros H. apply andb_prop in H. destruct H as [A B]. rewrite A. cbn. f_equal. now apply IH. Qed.
Lemma level_keyed E n : exists P, levels E n = keyed E P (e_stack E).
Proof. destruct n; cbn [levels]; [unfold no_level|unfold next_level]; eauto. Qed.
Lemma body_part E again v t x : part_text v = Some t -> infer_key_body E again v x = ret t.
Proof.
  destruct v; cbn [part_text]; try discriminate.
  - intros [= <-]. reflexivity.
  - intros [= <-]. now destruct b.
  - intros [= <-]. unfold infer_key_body. cbn [get_type]. unfold str_key. cbn [py_str opt]. unfold ret, bind. cbn. f_equal. f_equal. apply lossy_scalars. apply forallb_forall. apply Forall_forall. apply scalars_dec.
  - destruct (forallb scalar s) eqn:S; [|discriminate]. intros [= <-]. cbn. unfold to_str. now rewrite S.
Qed.
Lemma level_part E n v t x : e_stack E <> 0 -> part_text v = Some t -> l_key (levels E n) v x = ret t.
Proof. intros S P. destruct (level_keyed E n) as [Q ->]. destruct (e_stack E) as [|m]; [contradiction|]. cbn [keyed l_key]. now apply body_part. Qed.
Lemma bind_ret {A B} (a : A) (f : A -> M B) : bind (ret a) f = f a.
Proof. unfold bind, ret. cbn. now destruct (f a). Qed.
Lemma mapM_parts (each : pyval -> M str) parts ts : (forall v t, part_text v = Some t -> each v = ret t) -> part_texts parts = Some ts ->
  mapM each parts = ret ts.
Proof.
  intros A. revert ts. induction parts as [|v parts IH]; intros ts; cbn [part_texts mapM].
  - now intros [= <-].
  - destruct (part_text v) as [t|] eqn:T; [|discriminate]. destruct (part_texts parts) as [ts'|]; [|discriminate]. intros [= <-]. rewrite (A v t T), (IH ts' eq_refl). reflexivity.
Qed.
Lemma level_tuple E n parts ts x : 2 <= e_stack E -> part_texts parts = Some ts -> l_key (levels E n) (PTuple parts) x = ret (comma_joined ts).
Proof.
  intros S P. destruct (level_keyed E n) as [Q ->]. destruct (e_stack E) as [|[|m]]; [lia|lia|]. cbn [keyed l_key]. unfold infer_key_body at 1. cbn [get_type down_tuple base opt].
  rewrite bind_ret, (mapM_parts _ parts ts); [|intros v t H; now apply body_part|exact P]. rewrite <- join_spec. reflexivity.
Qed.
Lemma schema_part E n s v t x : e_stack E <> 0 -> part_schema s v -> part_text v = Some t -> z_key (build E (levels E n) s) v x = ret t.
Proof.
  intros S P T. destruct s; cbn [part_schema] in P; try contradiction; [now apply level_part|..]; destruct v; try contradiction; cbn [build z_key any_ser none_ser int_ser bool_ser str_ser simple].
  - cbn in T. now injection T as <-.
  - apply (body_part E (fun _ _ => fail ECrash)) with (x := x) in T. exact T.
  - cbn in T. injection T as <-. now destruct b.
  - cbn in T. destruct (forallb scalar s) eqn:Q; [|discriminate]. injection T as <-. cbn [down_str base]. now rewrite lossy_scalars.
Qed.
Lemma index_any i len : index_filter any_filter i None None len = Ok (Some (None, None)).
Proof. reflexivity. Qed.
Lemma key_any k : filter any_filter k None None = Ok (Some (None, None)).
Proof. reflexivity. Qed.
Lemma zip_parts E n ss x : e_stack E <> 0 -> forall parts ts len i, Forall2 part_schema ss parts -> part_texts parts = Some ts ->
  zip_items any_filter None None len (fun s e _ _ => z_key s e x) i (map (build E (levels E n)) ss) parts = ret ts.
Proof.
  intros S. induction ss as [|s ss IH]; intros parts ts len i F P; inversion F as [|? v ? parts' A B]; subst; cbn [map zip_items].
  - cbn in P. now injection P as <-.
  - cbn [part_texts] in P. destruct (part_text v) as [t|] eqn:T; [|discriminate]. destruct (part_texts parts') as [ts'|] eqn:T'; [|discriminate]. injection P as <-.
    rewrite index_any. cbn [res_opt]. rewrite bind_ret, (schema_part E n s v t x S A T), bind_ret.
    rewrite (IH parts' ts' len (Datatypes.S i) B T'). reflexivity.
Qed.
Lemma schema_key E n s parts ts x : 2 <= e_stack E -> tuple_key s parts -> part_texts parts = Some ts ->
  z_key (build E (levels E n) s) (PTuple parts) x = ret (comma_joined ts).
Proof.
  intros S K P. destruct s; cbn [tuple_key] in K; try contradiction; [|rename items into ss; destruct variadic; try contradiction].
  - now apply level_tuple.
  - destruct K as [-> K]. cbn [build z_key tuple_ser simple down_tuple base]. unfold tuple_each. rewrite map_length.
    assert (HL : length ss = length parts) by (clear -K; induction K; cbn; congruence). rewrite HL, Nat.eqb_refl, andb_false_r.
    rewrite (zip_parts E n ss x) with (ts := ts); [|lia|exact K|exact P]. rewrite skipn_all. rewrite <- join_spec. reflexivity.
Qed.
Lemma pairs_js_keys key each d : forall l, (forall kv, In kv d -> exists t, tuple_text (fst kv) t /\ key (fst kv) = ret t) ->
  snd (pairs_js any_filter None None key each (items d)) = Good l -> Forall2 (fun kv kj => tuple_text (fst kv) (fst kj)) d l.
Proof.
  induction d as [|[k v] d IH]; intros l K H; cbn [items map pairs_js fst snd] in H.
  - injection H as <-. constructor.
  - bg H w. rewrite key_any in H. bg H o. destruct (K (k, v) (or_introl eq_refl)) as [t [T Q]]. cbn [fst] in *. rewrite Q in H. bg H kk. bg H j. bg H r.
    injection H as <-. constructor; [exact T|]. apply IH; [|exact E0]. intros kv I. apply K. now right.
Qed.
Lemma pairs_py_keys key each d : forall d0 r, (forall kv, In kv d -> exists t, tuple_text (fst kv) t /\ key (fst kv) = ret (PStr t)) ->
  snd (pairs_py any_filter None None key each (items d) d0) = Good r ->
  exists l, r = fold_left (fun a kv => dict_set (PStr (fst kv)) (snd kv) a) l d0 /\ Forall2 (fun kv kj => tuple_text (fst kv) (fst kj)) d l.
Proof.
  induction d as [|[k v] d IH]; intros d0 r K H; cbn [items map pairs_py fst snd] in H.
  - injection H as <-. exists []. split; [reflexivity|constructor].
  - bg H w. rewrite key_any in H. bg H o. destruct (K (k, v) (or_introl eq_refl)) as [t [T Q]]. cbn [fst] in *. rewrite Q in H. bg H kk. bg H j. bg H dd.
    apply IH in H; [|intros kv I; apply K; now right]. destruct H as [l [A B]]. exists ((t, j) :: l). split; [exact A|]. now constructor.
Qed.

Section C57.
Variables (E : env) (key value : ser) (c : config) (o : options) (d : list (pyval * pyval)).
(** Native stack for a key and its parts; no filters. *)
Hypothesis S : 2 <= e_stack E.
Hypothesis I : o_include o = None.
Hypothesis X : o_exclude o = None.
Hypothesis K : Forall (fun kv => exists parts ts, fst kv = PTuple parts /\ tuple_key key parts /\ part_texts parts = Some ts) d.

Lemma keys_ok n x kv : In kv d -> exists t, tuple_text (fst kv) t /\ z_key (build E (levels E n) key) (fst kv) x = ret t.
Proof.
  intros H. rewrite Forall_forall in K. destruct (K kv H) as [parts [ts [A [B C]]]]. exists (comma_joined ts).
  split; [exists parts, ts; now repeat split|]. rewrite A. now apply schema_key.
Qed.
Theorem C57_to_json j ws : to_json E (SerDict any_filter key value) c o (PDict d) = Returned j ws ->
  exists l, j = JObj l /\ Forall2 (fun kv kj => tuple_text (fst kv) (fst kj)) d l.
Proof.
  intros H. apply final_good in H. cbn [build dict_ser simple z_js down_dict base] in H. rewrite I, X in H. bg H a. injection H as <-. exists a. split; [reflexivity|].
  eapply pairs_js_keys; [|exact E0]. intros kv Hk. now apply keys_ok.
Qed.
Theorem C57_to_python p ws : to_python E (SerDict any_filter key value) c true o (PDict d) = Returned p ws ->
  exists l, p = dict_of l /\ Forall2 (fun kv kj => tuple_text (fst kv) (fst kj)) d l.
Proof.
  intros H. apply final_good in H. cbn [build dict_ser simple z_py down_dict base] in H. rewrite I, X in H. bg H a. injection H as <-.
  cbn [x_json start] in E0. apply pairs_py_keys in E0; [|intros kv Hk; destruct (keys_ok ser_limit (start c true o) kv Hk) as [t [T Q]]; exists t; split; [exact T|rewrite Q; reflexivity]].
  destruct E0 as [l [A B]]. exists l. split; [now rewrite A|exact B].
Qed.
End C57.
Print Assumptions C57_to_json.
Print Assumptions C57_to_python.

(** Distinct keys whose parts contain no comma have distinct texts: the text determines the
    texts of the parts. *)
Lemma split_comma a b r r' : comma_free a -> comma_free b -> a ++ lit "," ++ r = b ++ lit "," ++ r' -> a = b /\ r = r'.
Proof.
  intros A B. revert b B. induction a as [|x a IH]; intros [|y b] B H; cbn in H.
  - split; [reflexivity|]. now injection H as ->.
  - injection H as <- H. destruct B. now left.
  - injection H as -> H. destruct A. now left.
  - injection H as <- H. destruct (IH (fun q => A (or_intror q)) b (fun q => B (or_intror q)) H) as [-> ->]. now split.
Qed.
Lemma no_comma a r b : comma_free b -> a ++ lit "," ++ r <> b.
Proof. intros B <-. apply B. apply in_or_app. right. now left. Qed.
Theorem C57_injective ts ts' : Forall comma_free ts -> Forall comma_free ts' -> ts <> [] -> ts' <> [] ->
  comma_joined ts = comma_joined ts' -> ts = ts'.
Proof.
  intros F. revert ts'. induction F as [|a ts A F IH]; intros [|b ts'] F' N N' H; try contradiction. inversion F' as [|? ? B F'']; subst.
  destruct ts as [|a2 ts], ts' as [|b2 ts'].
  - cbn in H. now subst.
  - exfalso. symmetry in H. exact (no_comma _ _ _ A H).
  - exfalso. exact (no_comma _ _ _ B H).
  - change (a ++ lit "," ++ comma_joined (a2 :: ts) = b ++ lit "," ++ comma_joined (b2 :: ts')) in H.
    apply split_comma in H; [|exact A|exact B]. destruct H as [-> H]. f_equal. apply IH; [exact F''|discriminate|discriminate|exact H].
Qed.
Print Assumptions C57_injective.

(** Keys with a comma in a part can have the same text: the object then has the same key
    twice and the dict of JSON mode loses an item. *)
Definition comma_keys : pyval := PDict [(PTuple [PStr (lit "a,b")], PInt 1); (PTuple [PStr (lit "a"); PStr (lit "b")], PInt 2)].
Theorem C57_collision_refuted :
  to_json E0 (SerDict any_filter SerAny SerAny) conf opts comma_keys = Returned (JObj [(lit "a,b", JInt 1); (lit "a,b", JInt 2)]) [] /\
  to_python E0 (SerDict any_filter SerAny SerAny) conf true opts comma_keys = Returned (PDict [(PStr (lit "a,b"), PInt 2)]) [].
Proof. split; vm_compute; reflexivity. Qed.
Print Assumptions C57_collision_refuted.
(** The empty tuple has the text of the tuple of one empty string, and an int the text of
    its digits. *)
Theorem C57_empty_refuted : exists k k', py_eq k k' = false /\
  to_json E0 (SerDict any_filter SerAny SerAny) conf opts (PDict [(k, PInt 1); (k', PInt 2)]) = Returned (JObj [([], JInt 1); ([], JInt 2)]) [].
Proof. exists (PTuple []), (PTuple [PStr []]). split; vm_compute; reflexivity. Qed.
Print Assumptions C57_empty_refuted.
Theorem C57_digits_refuted : exists k k', py_eq k k' = false /\
  to_json E0 (SerDict any_filter SerAny SerAny) conf opts (PDict [(k, PInt 1); (k', PInt 2)]) = Returned (JObj [(lit "1,2", JInt 1); (lit "1,2", JInt 2)]) [].
Proof. exists (PTuple [PInt 1; PInt 2]), (PTuple [PStr (lit "1"); PInt 2]). split; vm_compute; reflexivity. Qed.
Print Assumptions C57_digits_refuted.
(** A bool part is written "true" when its type is inferred and "True" by an int schema. *)
Theorem C57_bool_int_refuted :
  to_json E0 (SerDict any_filter (SerTuple any_filter [SerInt; SerAny] None) SerAny) conf opts (PDict [(PTuple [PBool true; PBool true], PInt 1)])
  = Returned (JObj [(lit "True,true", JInt 1)]) [].
Proof. vm_compute. reflexivity. Qed.
Print Assumptions C57_bool_int_refuted.
Example C57_ex : exists d, Forall (fun kv => exists parts ts, fst kv = PTuple parts /\ tuple_key (SerTuple any_filter [SerStr; SerInt] None) parts /\ part_texts parts = Some ts) d /\
  to_json E0 (SerDict any_filter (SerTuple any_filter [SerStr; SerInt] None) SerInt) conf opts (PDict d)
  = Returned (JObj [(lit "a,5", JInt 1); (lit "b,-3", JInt 2)]) [].
Proof.
  exists [(PTuple [PStr (lit "a"); PInt 5], PInt 1); (PTuple [PStr (lit "b"); PInt (-3)], PInt 2)]. split; [|vm_compute; reflexivity].
  repeat constructor; cbn [fst]; eexists; eexists; (split; [reflexivity|]); (split; [split; [reflexivity|repeat constructor]|vm_compute; reflexivity]).
Qed.

(** ** C50: unions *)

Lemma lax_build E L s : z_retry (build E L s) = lax_schema s.
Proof.
  assert (G : forall l, Forall (fun s => z_retry (build E L s) = lax_schema s) l -> existsb z_retry (map (build E L) l) = existsb lax_schema l).
  { intros l H. induction H as [|s' l A B IH]; [reflexivity|]. cbn [map existsb]. now rewrite A, IH. }
  induction s using ser_ind'; try reflexivity; cbn [build lax_schema]; try assumption; try (now apply G).
  - match goal with H : on_opt _ ?q |- _ => destruct q; [exact H|reflexivity] end.
  - cbn [function_ser simple z_retry]. rewrite IHs. match goal with H : on_opt _ ?q |- _ => destruct q; [cbn in H; now rewrite H|reflexivity] end.
Qed.
Lemma first_ok_good {A B} (sel : A -> M B) l r : snd (first_ok sel l) = Good r ->
  match r with
  | Some b => exists before a after, l = before ++ a :: after /\ Forall (fun a => rejected (snd (sel a))) before /\ snd (sel a) = Good b
  | None => Forall (fun a => rejected (snd (sel a))) l
  end.
Proof.
  revert r. induction l as [|a l IH]; intros r H; cbn [first_ok] in H.
  - injection H as <-. constructor.
  - apply bind_good in H. destruct H as [o [Q H]]. cbn [attempt snd] in Q. injection Q as <-. destruct (snd (sel a)) as [b|e] eqn:S.
    + injection H as <-. exists [], a, l. repeat split; [constructor|exact S].
    + apply IH in H. destruct r as [b|].
      * destruct H as [p [m [q [-> [F R]]]]]. exists (a :: p), m, q. repeat split; [|exact R]. constructor; [now rewrite S|exact F].
      * constructor; [now rewrite S|exact H].
Qed.
Lemma register_warns {A} (l : list A) x : x_collect x = true -> l <> [] -> In WUnion (fst (register_all l x)).
Proof.
  intros C N. destruct l as [|a l]; [contradiction|]. cbn [register_all]. unfold register, bind. rewrite C. now left.
Qed.
Lemma loud_next {A B} w (m : M A) (f : A -> M B) a : snd m = Good a -> In w (fst (f a)) -> In w (fst (bind m f)).
Proof. intros H I. unfold bind. rewrite H. apply in_or_app. now right. Qed.

Section C50.
Variables (E : env) (c : config) (o : options) (v : pyval) (members : list ser).
Notation L := (levels E ser_limit).

Lemma before_map {B} (run : sz -> M B) before a after : map (build E L) members = before ++ a :: after ->
  Forall (fun a => rejected (snd (run a))) before -> forall b, snd (run a) = Good b -> first_accepted (fun s => snd (run (build E L s))) members b.
Proof.
  intros M F b R. apply map_eq_app in M. destruct M as [p [q [-> [P Q]]]]. apply map_eq_cons in Q. destruct Q as [m [q' [-> [<- _]]]].
  exists p, m, q'. repeat split; [|exact R]. subst before. rewrite Forall_map in F. exact F.
Qed.

(** The members are tried in order with the strict check; then, if one of them asks for it,
    with the lax check; then the value is serialized by its own type, with a warning. *)
Inductive union_result {A} (run : check -> ser -> out A) (inferred : out A) (shown : list warning) : A -> Prop :=
| U_strict p : first_accepted (run CStrict) members p -> union_result run inferred shown p
| U_lax p : all_rejected (run CStrict) members -> existsb lax_schema members = true -> first_accepted (run CLax) members p -> union_result run inferred shown p
| U_inferred p : all_rejected (run CStrict) members ->
    (existsb lax_schema members = true -> all_rejected (run CLax) members) ->
    (o_warnings o = WWarn -> members <> [] -> In WUnion shown) -> inferred = Good p -> union_result run inferred shown p.

Lemma retry_lax : existsb z_retry (map (build E L) members) = existsb lax_schema members.
Proof. clear. induction members as [|s l IH]; [reflexivity|]. cbn [map existsb]. now rewrite lax_build, IH. Qed.
Lemma fst_final {A} w (m : M A) a ws : final_check w m = Returned a ws -> w = WWarn -> ws = fst m.
Proof. intros H ->. unfold final_check in H. destruct (snd m); [|discriminate]. now injection H as _ <-. Qed.

Lemma union_good {B} (run : sz -> extra -> M B) x m (inf : M B) b :
  x_check x = CNone -> m = or_infer (union_serialize run x (map (build E L) members) (existsb z_retry (map (build E L) members))) inf ->
  snd m = Good b -> (o_warnings o = WWarn -> x_collect x = true) ->
  union_result (fun chk s => snd (run (build E L s) (set_check chk x))) (snd inf) (fst m) b.
Proof.
  intros C -> H W. unfold or_infer in H. apply bind_good in H. destruct H as [r [U H]]. unfold union_serialize in U.
  apply bind_good in U. destruct U as [r1 [U1 U2]]. pose proof (first_ok_good _ _ _ U1) as F1. destruct r1 as [b1|].
  { injection U2 as <-. injection H as ->. destruct F1 as [p [a [q [M [F R]]]]]. apply U_strict. eapply (before_map (fun s => run s (set_check CStrict x))); eassumption. }
  apply bind_good in U2. destruct U2 as [r2 [U2 U3]]. rewrite retry_lax in U2. rewrite C in U2. cbn [is_strict negb andb] in U2. rewrite Forall_map in F1.
  destruct (existsb lax_schema members) eqn:X.
  - pose proof (first_ok_good _ _ _ U2) as F2. destruct r2 as [b2|].
    { injection U3 as <-. injection H as ->. destruct F2 as [p [a [q [M [F R]]]]]. apply U_lax; [exact F1|exact X|]. eapply (before_map (fun s => run s (set_check CLax x))); eassumption. }
    rewrite Forall_map in F2. pose proof U3 as U4. rewrite C in U3. cbn [check_enabled] in U3. bg U3 t. injection U3 as <-.
    apply U_inferred; [exact F1|intros _; exact F2| |exact H].
    intros WW N. apply loud_bind. eapply loud_next; [exact U1|]. eapply loud_next; [rewrite retry_lax, C; cbn [is_strict negb andb]; rewrite X; exact U2|].
    rewrite C. cbn [check_enabled]. apply loud_bind. apply register_warns; [now apply W|]. now destruct members.
  - injection U2 as <-. rewrite C in U3. cbn [check_enabled] in U3. bg U3 t. injection U3 as <-.
    apply U_inferred; [exact F1|congruence| |exact H].
    intros WW N. apply loud_bind. eapply loud_next; [exact U1|]. eapply loud_next; [rewrite retry_lax, C; cbn [is_strict negb andb]; rewrite X; reflexivity|].
    rewrite C. cbn [check_enabled]. apply loud_bind. apply register_warns; [now apply W|]. now destruct members.
Qed.
Lemma union_none x : x_check x = CNone -> (o_warnings o = WWarn -> x_collect x = true) ->
  forall run : sz -> extra -> M pyval, snd (union_serialize run x (map (build E L) members) (existsb z_retry (map (build E L) members))) = Good None ->
  all_rejected (fun s => snd (run (build E L s) (set_check CStrict x))) members /\
  (existsb lax_schema members = true -> all_rejected (fun s => snd (run (build E L s) (set_check CLax x))) members) /\
  (o_warnings o = WWarn -> members <> [] -> In WUnion (fst (union_serialize run x (map (build E L) members) (existsb z_retry (map (build E L) members))))).
Proof.
  intros C W run U. pose proof U as U0. unfold union_serialize in U0.
  apply bind_good in U0. destruct U0 as [r1 [U1 U2]]. pose proof (first_ok_good _ _ _ U1) as F1. destruct r1 as [b1|]; [discriminate|].
  apply bind_good in U2. destruct U2 as [r2 [U2 U3]]. pose proof U2 as U2'. rewrite retry_lax in U2. rewrite C in U2. cbn [is_strict negb andb] in U2. rewrite Forall_map in F1.
  destruct r2 as [b2|]; [discriminate|]. split; [exact F1|]. split.
  - intros X. rewrite X in U2. pose proof (first_ok_good _ _ _ U2) as F2. cbn in F2. rewrite Forall_map in F2. exact F2.
  - intros WW N. unfold union_serialize. eapply loud_next; [exact U1|]. eapply loud_next; [exact U2'|].
    rewrite C. cbn [check_enabled]. apply loud_bind. apply register_warns; [now apply W|]. now destruct members.
Qed.

Theorem C50_to_python json p ws : to_python E (SerUnion members) c json o v = Returned p ws ->
  union_result (attempt_with E c json o v) (snd (l_py L v (o_include o) (o_exclude o) (start c json o))) ws p.
Proof.
  intros H. pose proof (final_good _ _ _ _ H) as G. pose proof (fst_final _ _ _ _ H) as W. cbn [build union_ser simple z_py] in G, W.
  pose proof (union_good (fun s x' => z_py s v (o_include o) (o_exclude o) x') (start c json o) _ _ p eq_refl eq_refl G) as Q.
  assert (K : o_warnings o = WWarn -> x_collect (start c json o) = true) by (cbn; now intros ->). specialize (Q K).
  destruct Q as [p F|p A X F|p A X N I]; [now apply U_strict|now apply U_lax|]. apply U_inferred; auto. intros WW M. rewrite (W WW). now apply N.
Qed.

(** In JSON the result of the member is written by its type. *)
Theorem C50_to_json j ws : to_json E (SerUnion members) c o v = Returned j ws ->
  (exists p inf, union_result (attempt_with E c true o v) (Bad inf) ws p /\ snd (l_js L p None None (start c true o)) = Good j) \/
  (all_rejected (attempt_with E c true o v CStrict) members /\
   (existsb lax_schema members = true -> all_rejected (attempt_with E c true o v CLax) members) /\
   (o_warnings o = WWarn -> members <> [] -> In WUnion ws) /\
   snd (l_js L v (o_include o) (o_exclude o) (start c true o)) = Good j).
Proof.
  intros H. pose proof (final_good _ _ _ _ H) as G. pose proof (fst_final _ _ _ _ H) as W. cbn [build union_ser simple z_js] in G, W.
  set (m := union_serialize _ _ _ _) in *. apply bind_good in G. destruct G as [r [U R]].
  assert (K : o_warnings o = WWarn -> x_collect (start c true o) = true) by (cbn; now intros ->).
  destruct r as [p|].
  - left. exists p, EOther. split; [|exact R].
    assert (S : snd (or_infer m (fail EOther)) = Good p) by (unfold or_infer, bind; rewrite U; reflexivity).
    pose proof (union_good (fun s x' => z_py s v (o_include o) (o_exclude o) x') (start c true o) _ _ p eq_refl eq_refl S K) as Q.
    destruct Q as [q F|q A X F|q A X N I]; [now apply U_strict|now apply U_lax|discriminate I].
  - right. pose proof (union_none (start c true o) eq_refl K _ U) as Q. destruct Q as [A [B N]]. repeat split; [exact A|exact B| |exact R].
    intros WW M. rewrite (W WW). apply loud_bind. now apply N.
Qed.
End C50.
Print Assumptions C50_to_python.
Print Assumptions C50_to_json.

(** In a union of models an instance is not serialized by a model of another class as long as
    one for its own class accepts it. *)
Definition model_of (s : ser) : option N := match s with SerModel cls _ _ false => Some cls | _ => None end.
Theorem C50_models E c json o v members cls attrs p ws : o_as_any o = false -> v = PObj cls attrs ->
  Forall (fun s => model_of s <> None) members ->
  Exists (fun s => ~ rejected (attempt_with E c json o v CStrict s)) members ->
  to_python E (SerUnion members) c json o v = Returned p ws ->
  exists s, In s members /\ model_of s = Some cls /\ attempt_with E c json o v CStrict s = Good p.
Proof.
  intros A V M X H. apply C50_to_python in H.
  assert (N : all_rejected (attempt_with E c json o v CStrict) members -> False).
  { intros R. apply Exists_exists in X. destruct X as [s [I S]]. unfold all_rejected in R. rewrite Forall_forall in R. now apply S, R. }
  destruct H as [p F|p R|p R]; try (destruct (N R)). destruct F as [b [s [a [-> [_ G]]]]]. exists s.
  assert (I : In s (b ++ s :: a)) by (apply in_or_app; right; now left). split; [exact I|]. split; [|exact G].
  rewrite Forall_forall in M. specialize (M s I). destruct s; cbn [model_of] in M; try contradiction. destruct root; try contradiction. rename cls0 into cls'.
  cbn [model_of]. f_equal. destruct (N.eqb cls' cls) eqn:Q; [now apply N.eqb_eq|]. exfalso.
  unfold attempt_with in G. cbn [build model_ser simple z_py] in G. cbv zeta in G. cbn [x_duck x_check set_duck set_model set_check start] in G. rewrite A in G. cbn [next_mode is_inferred] in G.
  unfold class_allows in G. cbn [x_check set_duck set_model set_check] in G. subst v. unfold exact_instance in G. cbn in G.
  rewrite N.eqb_sym, Q in G. discriminate G.
Qed.
Print Assumptions C50_models.

(** A member is not tried with the lax check when none asks for it: an int for a float schema. *)
Theorem C50_no_retry_refuted : exists s v p, attempt_with E0 conf true opts v CLax s = Good p /\
  exists q, to_python E0 (SerUnion [s]) conf true opts v = Returned q [WUnion] /\ q <> p.
Proof.
  exists (SerFloat INull), (PInt 5), (PFloat (f_of_Z 5)). split; [vm_compute; reflexivity|]. exists (PInt 5). split; [vm_compute; reflexivity|discriminate].
Qed.
Print Assumptions C50_no_retry_refuted.
(** None is accepted by whichever member comes first. *)
Theorem C50_none_refuted : exists f, attempt_with E0 conf false opts PNone CStrict SerInt = Good PNone /\
  to_python E0 (SerUnion [SerInt; SerFunction Always false f SerAny None]) conf false opts PNone = Returned PNone [] /\
  to_python E0 (SerUnion [SerFunction Always false f SerAny None; SerInt]) conf false opts PNone = Returned (PStr (lit "none")) [].
Proof. exists (fun _ _ => inl (PStr (lit "none"))). repeat split; vm_compute; reflexivity. Qed.
Print Assumptions C50_none_refuted.
(** The chosen member's float mode is lost in JSON: alone it writes "NaN", in a union null. *)
Theorem C50_float_mode_refuted : exists v,
  to_json E0 (SerFloat IStrings) conf opts v = Returned (JStr (lit "NaN")) [] /\
  to_json E0 (SerUnion [SerFloat IStrings; SerStr]) conf opts v = Returned JNull [].
Proof. exists (PFloat S754_nan). split; vm_compute; reflexivity. Qed.
Print Assumptions C50_float_mode_refuted.
(** The warnings of a member that was tried and rejected are shown although another member
    serialized the value without any. *)
Definition leak_class (n : N) : class_info :=
  if N.eqb n 1 then {| ci_ser := Some (SerModel 1 (SerFields SimpleDict [(lit "x", fld None SerInt)] None []) false false, conf);
                       ci_dataclass := None; ci_enum := false |} else plain.
Definition E_leak : env := ex_env leak_class (fun _ => None).
Definition leak_member : ser := SerFields SimpleDict [(lit "a", fld None SerAny); (lit "b", fld None SerInt)] None [].
Definition leak_function : ser := SerFunction Always false (fun _ _ => inl (PStr (lit "ok"))) SerAny None.
Definition leak_value : pyval :=
  PDict [(PStr (lit "a"), PObj 1 [(dunder_dict, PDict [(PStr (lit "x"), PStr (lit "not an int"))])]); (PStr (lit "b"), PStr (lit "s"))].
Theorem C50_leak_refuted :
  to_python E_leak leak_function conf false opts leak_value = Returned (PStr (lit "ok")) [] /\
  rejected (attempt_with E_leak conf false opts leak_value CStrict leak_member) /\
  to_python E_leak (SerUnion [leak_member; leak_function]) conf false opts leak_value
  = Returned (PStr (lit "ok")) [WFallback (PStr (lit "not an int"))].
Proof. repeat split; vm_compute; reflexivity. Qed.
Print Assumptions C50_leak_refuted.

Definition ex_union : ser := SerUnion [SerModel 1 (SerFields SimpleDict [(lit "a", fld None SerInt)] None []) false false;
  SerModel 2 (SerFields SimpleDict [(lit "b", fld None SerStr)] None []) false false; SerInt].
Definition obj (n : N) (k : str) (p : pyval) : pyval := PObj n [(dunder_dict, PDict [(PStr k, p)])].
Definition E_sub : env :=
  {| e_class := fun _ => plain; e_sub := fun a b => N.eqb a b || (N.eqb a 3 && N.eqb b 2); e_def := fun _ => None; e_str := fun _ => None;
     e_hash := fun _ => true; e_prop := fun _ _ => None; e_ryu := ex_ryu; e_stack := 5 |}.
(** An instance of the second class, of a subclass of it, and of neither. *)
Example C50_ex_strict : to_python E_sub ex_union conf false opts (obj 2 (lit "b") (PStr (lit "x"))) = Returned (PDict [(PStr (lit "b"), PStr (lit "x"))]) [].
Proof. vm_compute. reflexivity. Qed.
Example C50_ex_lax : to_python E_sub ex_union conf false opts (obj 3 (lit "b") (PStr (lit "x"))) = Returned (PDict [(PStr (lit "b"), PStr (lit "x"))]) [].
Proof. vm_compute. reflexivity. Qed.
Example C50_ex_inferred : to_python E_sub ex_union conf false opts (PStr (lit "x")) = Returned (PStr (lit "x")) [WUnion; WUnion; WUnion].
Proof. vm_compute. reflexivity. Qed.
Example C50_ex_json : to_json E_sub ex_union conf opts (obj 2 (lit "b") (PStr (lit "x"))) = Returned (JObj [(lit "b", JStr (lit "x"))]) [].
Proof. vm_compute. reflexivity. Qed.
Example C50_ex_models : exists members v, Forall (fun s => model_of s <> None) members /\
  Exists (fun s => ~ rejected (attempt_with E_sub conf false opts v CStrict s)) members /\
  v = obj 2 (lit "b") (PStr (lit "x")) /\ length members = 2.
Proof.
  exists [SerModel 1 (SerFields SimpleDict [(lit "b", fld None SerStr)] None []) false false;
          SerModel 2 (SerFields SimpleDict [(lit "b", fld None SerStr)] None []) false false], (obj 2 (lit "b") (PStr (lit "x"))).
  split; [repeat constructor; discriminate|]. split; [|now split]. right. left. vm_compute. intros H. exact H.
Qed.

(** ** C47: cases and exceptions *)
Definition with_options (by_alias : option bool) (unset defaults none : bool) (exc : incl) (o : options) : options :=
  {| o_by_alias := by_alias; o_exclude_unset := unset; o_exclude_defaults := defaults; o_exclude_none := none; o_round_trip := o_round_trip o;
     o_warnings := o_warnings o; o_fallback := o_fallback o; o_as_any := o_as_any o; o_include := o_include o; o_exclude := exc |}.
Definition c47_fields : list (str * field ser) :=
  [(lit "a", fld (Some (lit "A")) SerInt); (lit "b", fld None (SerDefault (Some (PInt 7)) SerInt)); (lit "c", fld None (SerNullable SerStr));
   (lit "d", fld None SerInt); (lit "e", fld (Some (lit "E")) SerStr)].
Definition c47_data : list (str * pyval) :=
  [(lit "a", PInt 1); (lit "b", PInt 7); (lit "c", PNone); (lit "d", PInt 4); (lit "e", PStr (lit "x"))].
Definition c47_set : list str := [lit "a"; lit "b"; lit "c"; lit "e"].
Definition c47_value : pyval := PObj 1 [(dunder_dict, as_dict c47_data); (dunder_fields_set, PSet (map PStr c47_set))].
Definition c47_schema : ser := model_schema 1 c47_fields None [cfld (lit "z") SerInt].
Definition c47_env : env :=
  {| e_class := fun _ => plain; e_sub := N.eqb; e_def := fun _ => None; e_str := fun _ => None; e_hash := fun _ => true;
     e_prop := fun _ n => if str_eqb n (lit "z") then Some (PInt 9) else None; e_ryu := ex_ryu; e_stack := 5 |}.
Example C47_ex :
  let o := with_options (Some true) true true true (Some (FSet [KStr (lit "e")])) opts in
  filters_ok o /\ dict_attr c47_value = Some (as_dict c47_data) /\ get_attr c47_env c47_value dunder_fields_set = Some (PSet (map PStr c47_set)) /\
  to_json c47_env c47_schema conf o c47_value = Returned (JObj [(lit "A", JInt 1); (lit "z", JInt 9)]) [] /\
  to_json c47_env c47_schema conf opts c47_value
    = Returned (JObj [(lit "A", JInt 1); (lit "b", JInt 7); (lit "c", JNull); (lit "d", JInt 4); (lit "E", JStr (lit "x")); (lit "z", JInt 9)]) [] /\
  to_python c47_env c47_schema conf false (with_options (Some false) true false false None opts) c47_value
    = Returned (PDict [(PStr (lit "a"), PInt 1); (PStr (lit "b"), PInt 7); (PStr (lit "c"), PNone); (PStr (lit "e"), PStr (lit "x")); (PStr (lit "z"), PInt 9)]) [].
Proof.
  cbv zeta. split; [|repeat split; vm_compute; reflexivity].
  split; [exact I|]. split; [exact I|]. split; [split; [|discriminate]|]; [repeat constructor; intros []|].
  intros [|k [|k' r]] H; cbn in *; try discriminate; reflexivity.
Qed.
(** A dataclass has no set of set fields: exclude_unset leaves nothing out. *)
Definition E_dc : env :=
  ex_env (fun n => if N.eqb n 1 then {| ci_ser := None; ci_dataclass := Some (map fst c47_fields); ci_enum := false |} else plain) (fun _ => None).
Example C47_ex_dataclass : has_dataclass_fields E_dc c47_value = true /\
  to_json E_dc (dataclass_schema 1 c47_fields None (map fst c47_fields)) conf (with_options None true true true None opts) c47_value
  = Returned (JObj [(lit "A", JInt 1); (lit "d", JInt 4); (lit "E", JStr (lit "x"))]) [].
Proof. split; vm_compute; reflexivity. Qed.

(** exclude_defaults does not see a default inside a nullable schema. *)
Theorem C47_hidden_default_refuted : exists s d, 
  to_json E0 (model_schema 1 [(lit "a", fld None (SerNullable (SerDefault (Some d) s)))] None []) conf (with_options None false true false None opts)
    (PObj 1 [(dunder_dict, as_dict [(lit "a", d)])]) = Returned (JObj [(lit "a", JInt 7)]) [] /\
  to_json E0 (model_schema 1 [(lit "a", fld None (SerDefault (Some d) (SerNullable s)))] None []) conf (with_options None false true false None opts)
    (PObj 1 [(dunder_dict, as_dict [(lit "a", d)])]) = Returned (JObj []) [].
Proof. exists SerInt, (PInt 7). split; vm_compute; reflexivity. Qed.
Print Assumptions C47_hidden_default_refuted.
(** A function serializer with when_used='json' does not apply in Python mode, and yet the
    exclude of the call does not reach the fields of the model it wraps. *)
Definition inner_model : ser := SerModel 2 (SerFields SimpleDict [(lit "x", fld None SerInt); (lit "y", fld None SerInt)] None []) false false.
Definition wrapped : ser := SerFunction WhenJson false (fun _ v => inl v) SerAny (Some inner_model).
Theorem C47_filter_dropped_refuted :
  let o := with_options None false false false (Some (FDict [(KStr (lit "x"), FEll)])) opts in
  let v := PObj 2 [(dunder_dict, as_dict [(lit "x", PInt 1); (lit "y", PInt 2)])] in
  to_python E0 inner_model conf false o v = Returned (PDict [(PStr (lit "y"), PInt 2)]) [] /\
  to_python E0 wrapped conf false o v = Returned (PDict [(PStr (lit "x"), PInt 1); (PStr (lit "y"), PInt 2)]) [].
Proof. split; vm_compute; reflexivity. Qed.
Print Assumptions C47_filter_dropped_refuted.
