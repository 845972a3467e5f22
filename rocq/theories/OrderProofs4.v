From Coq Require Import List NArith ZArith Bool Permutation Lia.
From Verif Require Import Base Float64 IntParse Numbers BytesCodec Values VState LookupKey Collections Child Inputs Scalars Literal Wrappers Union TaggedUnion Tuple ModelFields TypedDict Assign Arguments Classes Interp InterpSpec InterpProofs StrictSpec LooseSpec LooseQuiet LooseOff OrderSpec OrderProofs OrderProofs2 OrderProofs3.
Import ListNotations.
Open Scope nat_scope.

(** ** Reading mappings *)
Lemma f2_map A B C D (R : C -> D -> Prop) (f : A -> C) (g : B -> D) (Q : A -> B -> Prop) l l' :
  (forall a b, Q a b -> R (f a) (g b)) -> Forall2 Q l l' -> Forall2 R (map f l) (map g l').
Proof. intros H. induction 1; cbn [map]; constructor; auto. Qed.
Lemma f2_str d d' : str_keys d -> Forall2 (fun a b => fst a = fst b /\ reordered (snd a) (snd b)) d d' ->
  Forall2 (fun a b => exists k, a = (PStr k, snd a) /\ b = (PStr k, snd b) /\ reordered (snd a) (snd b)) d d'.
Proof.
  intros K F. induction F as [|[a x] [b y] l l' [A B] F IH]; [constructor|]. inversion K as [|? ? [k E] K2]; subst. cbn [fst snd] in *. subst a b.
  constructor; [exists k; auto|now apply IH].
Qed.
Lemma found_map A (R : A -> A -> Prop) (f : A -> input) o o' : (forall a b, R a b -> rin (f a) (f b)) -> Ropt (Rfound R) o o' ->
  Ropt (Rfound rin) (option_map (fun pv => (fst pv, f (snd pv))) o) (option_map (fun pv => (fst pv, f (snd pv))) o').
Proof. intros H [|p p' [P Q]]; cbn [option_map]; constructor. split; cbn [fst snd]; [exact P|now apply H]. Qed.
Lemma py_mdict_rel repr d d1 d' : str_keys d -> NoDup (map fst d) -> Permutation d d1 ->
  Forall2 (fun a b => fst a = fst b /\ reordered (snd a) (snd b)) d1 d' -> Rmd (py_mdict repr d) (py_mdict repr d').
Proof.
  intros K N P F. split; cbn [py_mdict md_get md_is_attr md_iter].
  - intros k. apply ROk. apply (found_map _ reordered IPy); [intros; now constructor|]. now apply (dict_item_reo _ _ d1).
  - reflexivity.
  - eexists _, _. split; [reflexivity|]. split; [reflexivity|]. eexists. split; [apply Permutation_map; exact P|].
    apply (f2_map _ _ _ _ _ _ _ _ _ _) with (2 := f2_str _ _ (Permutation_Forall P K) F).
    intros [a x] [b y] (k & [= ->] & [= ->] & R). cbn [fst snd] in *. apply (RE_ok _ k); [reflexivity|now constructor].
Qed.
Lemma json_mdict_rel l l1 l' : NoDup (map fst l) -> Permutation l l1 ->
  Forall2 (fun a b => fst a = fst b /\ jreordered (snd a) (snd b)) l1 l' -> Rmd (json_mdict l) (json_mdict l').
Proof.
  intros N P F. split; cbn [json_mdict md_get md_is_attr md_iter].
  - intros k. apply ROk. apply (found_map _ jreordered IJson); [intros; now constructor|]. now apply (json_get_reo _ _ l1).
  - reflexivity.
  - eexists _, _. split; [reflexivity|]. split; [reflexivity|]. eexists. split; [apply Permutation_map; exact P|].
    refine (f2_map _ _ _ _ _ _ _ _ _ _ _ F).
    intros [a x] [b y] [A B]. cbn [fst snd] in *. subst b. apply (RE_ok _ a); [reflexivity|now constructor].
Qed.
Lemma new_value_rel v v' : reordered v v' -> (exists i i', new_value v = VOk i /\ new_value v' = VOk i' /\ rin i i') \/
  (exists x x', new_value v = VErr (LineErrors [new_error EStringType x]) /\ new_value v' = VErr (LineErrors [new_error EStringType x'])).
Proof.
  intros R. pose proof R as R0. destruct R as [w|l l' F|l l' F|d d1 d' K N P F]; unfold new_value.
  - destruct (as_str w); [left; eexists _, _; repeat split; constructor|]. destruct (dict_items w); [left; eexists _, _; repeat split; constructor|right; eexists _, _; split; reflexivity].
  - right; eexists _, _; split; reflexivity.
  - right; eexists _, _; split; reflexivity.
  - left. eexists _, _. split; [reflexivity|]. split; [reflexivity|]. now apply RI_strings.
Qed.
Lemma strings_mdict_rel repr d d1 d' : str_keys d -> NoDup (map fst d) -> Permutation d d1 ->
  Forall2 (fun a b => fst a = fst b /\ reordered (snd a) (snd b)) d1 d' -> Rmd (strings_mdict repr d) (strings_mdict repr d').
Proof.
  intros K N P F. split; cbn [strings_mdict md_get md_is_attr md_iter].
  - intros k. destruct (dict_item_reo k _ _ _ K N P F) as [|[p v] [p' v'] [A B]]; [apply ROk; constructor|]. cbn [fst snd] in *. subst p'.
    destruct (new_value_rel _ _ B) as [(i & i' & -> & -> & I)|(x & x' & -> & ->)]; constructor; [constructor; now split|constructor; apply Rlines_one].
  - reflexivity.
  - eexists _, _. split; [reflexivity|]. split; [reflexivity|]. eexists. split; [apply Permutation_map; exact P|].
    apply (f2_map _ _ _ _ _ _ _ _ _ _) with (2 := f2_str _ _ (Permutation_Forall P K) F).
    intros [a x] [b y] (k & [= ->] & [= ->] & R). cbn [fst snd] in *. unfold new_key at 1 2. cbn [as_str].
    destruct (new_value_rel _ _ R) as [(i & i' & -> & -> & I)|(z & z' & -> & ->)]; [|apply RE_bad]. apply (RE_ok _ k); [reflexivity|exact I].
Qed.
Lemma attr_mdict_rel ga obj d d1 d' : str_keys d -> NoDup (map fst d) -> Permutation d d1 ->
  Forall2 (fun a b => fst a = fst b /\ reordered (snd a) (snd b)) d1 d' -> Rmd (attr_mdict ga obj (Some d)) (attr_mdict ga obj (Some d')).
Proof.
  intros K N P F. split; cbn [attr_mdict md_get md_is_attr md_iter].
  - intros k. unfold py_get_attr. destruct (dict_item_reo k _ _ _ K N P F) as [|p p' [A B]].
    + destruct (simple_py_get_attr _ _ _) as [[p|]|e]; [constructor; constructor; split; [reflexivity|constructor]|constructor; constructor|apply Rr_val_err].
    + constructor. constructor. split; cbn [fst snd]; [exact A|now constructor].
  - reflexivity.
  - exists [], []. split; [reflexivity|]. split; [reflexivity|]. exists []. split; constructor.
Qed.
Lemma attr_mdict_refl ga obj kw : Rmd (attr_mdict ga obj kw) (attr_mdict ga obj kw).
Proof.
  split; cbn [attr_mdict md_get md_is_attr md_iter].
  - intros k. destruct (py_get_attr _ _ _ _) as [[p|]|e]; constructor; [constructor; split; [reflexivity|constructor]|constructor|apply REq].
  - reflexivity.
  - exists [], []. split; [reflexivity|]. split; [reflexivity|]. exists []. split; constructor.
Qed.
Lemma read_dict repr : Rread Rmd (validate_dict repr).
Proof.
  intros st i i' D. destruct D as [l l' F|l l' F|d d1 d' K N P F|l l' F|l l1 l' N P F|l l'|l l'|d d1 d' K N P F];
    unfold validate_dict; cbn [dict_items strip as_str]; try apply Rr_val_err; apply ROk.
  - now apply (py_mdict_rel _ _ d1).
  - now apply (json_mdict_rel _ l1).
  - now apply (strings_mdict_rel _ _ d1).
Qed.
Lemma read_fields repr ga st fa i i' : differ i i' -> Rr Rmd (validate_model_fields repr ga st fa i) (validate_model_fields repr ga st fa i').
Proof.
  intros D. unfold validate_model_fields. pose proof (read_dict repr st _ _ D) as RD.
  destruct D as [l l' F|l l' F|d d1 d' K N P F|l l' F|l l1 l' N P F|l l'|l l'|d d1 d' K N P F]; try exact RD; destruct fa; try exact RD; cbn [dict_items strip from_attributes_applicable].
  - apply Rr_val_err.
  - destruct F as [|x x' l l' X F]; [apply Rr_val_err|]. destruct F as [|y y' l l' Y F]; [apply Rr_val_err|]. destruct F as [|z z' l l' Z F]; [|apply Rr_val_err].
    destruct Y as [w|a b A|a b A|d d1 d' K N P F].
    + destruct (dict_items w) as [d|]; [|apply Rr_val_err]. destruct X; cbn [from_attributes_applicable]; try apply Rr_val_err.
      destruct (from_attributes_applicable v); [apply ROk, attr_mdict_refl|apply Rr_val_err].
    + apply Rr_val_err.
    + apply Rr_val_err.
    + cbn [dict_items strip]. destruct X; cbn [from_attributes_applicable]; try apply Rr_val_err.
      destruct (from_attributes_applicable v); [apply ROk; now apply (attr_mdict_rel _ _ _ d1)|apply Rr_val_err].
Qed.

(** ** Fields *)
Record Rfa (a1 a2 : facc) : Prop := { rf_dict : fa_dict a1 = fa_dict a2; rf_set : fa_set a1 = fa_set a2; rf_used : fa_used a1 = fa_used a2; rf_errors : Rlines (fa_errors a1) (fa_errors a2) }.
Lemma fa_add_rel e1 e2 a1 a2 : Rlines e1 e2 -> Rfa a1 a2 -> Rfa (fa_add_errors e1 a1) (fa_add_errors e2 a2).
Proof. intros H []. split; cbn; auto. now apply Rlines_app. Qed.
Lemma fa_put_rel k v a1 a2 : Rfa a1 a2 -> Rfa (fa_put k v a1) (fa_put k v a2).
Proof. intros []. split; cbn; congruence. Qed.
Lemma fa_mark_rel k a1 a2 : Rfa a1 a2 -> Rfa (fa_mark k a1) (fa_mark k a2).
Proof. intros []. split; cbn; congruence. Qed.
Lemma fa_use_rel k a1 a2 : Rfa a1 a2 -> Rfa (fa_use k a1) (fa_use k a2).
Proof. intros []. split; cbn; congruence. Qed.
Lemma Rfa_init : Rfa fa_init fa_init.
Proof. split; try reflexivity. apply Rlines_refl. Qed.
Ltac rfa := repeat first [ assumption | apply fa_add_rel; [solve [rlines]|] | apply fa_put_rel | apply fa_mark_rel | apply fa_use_rel ].
Lemma key_error_rel k t i1 i2 lba n : Ropt (fun a b => Rlines [a] [b]) (key_error k t i1 lba n) (key_error k t i2 lba n).
Proof. unfold key_error. destruct lba; [destruct (first_of k); constructor; apply Rlines_one|constructor; apply Rlines_one]. Qed.

Lemma fields_loop_rel c md md' i i' ba bn fs : Rmd md md' -> Forall (fun f => rcv (f_cv f)) fs -> forall a1 a2 s, Rfa a1 a2 -> off s ->
  RP Rfa (fields_loop c md i ba bn fs a1 s) (fields_loop c md' i' ba bn fs a2 s).
Proof.
  intros M. induction 1 as [|f fs [V VD] FS IH]; intros a1 a2 s A O; cbn [fields_loop]; [rp|]. cbv zeta. rewrite (rf_dict _ _ A).
  destruct (collection_select _ _ _) as [key|]; [|rp].
  destruct (rd_get _ _ M key) as [o1 o2 [|[p1 v1] [p2 v2] [Hp Hv]]|e1 e2 E].
  - destruct (cv_default (f_cv f) _ _) as [[[x|]|[es| | | |]] s'] eqn:D; try (apply IH; [solve [rfa]|go]); try rp.
    destruct (key_error_rel key EMissing i i' (fc_loc_by_alias c) (f_name f)) as [|x1 x2 X]; [rp|]. apply IH; [|go]. apply fa_add_rel; assumption.
  - cbn [fst snd] in *. subst p2. 
    match goal with |- RP _ (match rebind ?g ?z ?k1 with _ => _ end) (match rebind ?g ?z ?k2 with _ => _ end) => assert (W : RP eq (rebind g z k1) (rebind g z k2)) by (apply rebind_rel; [go|intros; now apply V]) end.
    destruct W as [r1 r2 t [x1 x2 <-|y1 y2 E] Ot]; [apply IH; [solve [rfa]|exact Ot]|].
    apply Rerr_cases in E. destruct E as [(l1 & l2 & -> & -> & E)|[-> E]]; [apply IH; [solve [rfa]|exact Ot]|].
    destruct y2; try noline; try rp. apply IH; [solve [rfa]|exact Ot].
  - apply Rerr_cases in E. destruct E as [(l1 & l2 & -> & -> & E)|[-> E]]; [apply IH; [solve [rfa]|go]|]. destruct e2; try noline; rp.
Qed.
Lemma td_loop_rel c md md' i i' last ba bn fs : Rmd md md' -> Forall (fun f => rcv (f_cv f)) fs -> forall a1 a2 s, Rfa a1 a2 -> off s ->
  RP Rfa (td_loop c md i last PartialOff ba bn fs a1 s) (td_loop c md' i' last PartialOff ba bn fs a2 s).
Proof.
  intros M. induction 1 as [|f fs [V VD] FS IH]; intros a1 a2 s A O; cbn [td_loop]; [rp|]. cbv zeta. rewrite (rf_dict _ _ A).
  destruct (collection_select _ _ _) as [key|]; [|rp].
  destruct (rd_get _ _ M key) as [o1 o2 [|[p1 v1] [p2 v2] [Hp Hv]]|e1 e2 E].
  - destruct (cv_default (f_cv f) _ _) as [[[x|]|[es| | | |]] s'] eqn:D; try (apply IH; [solve [rfa]|go]); try rp. destruct (f_required f); [|apply IH; [solve [rfa]|go]].
    destruct (key_error_rel key EMissing i i' (fc_loc_by_alias c) (f_name f)) as [|x1 x2 X]; [rp|]. apply IH; [|go]. apply fa_add_rel; assumption.
  - cbn [fst snd] in *. subst p2. 
    match goal with |- RP _ (match rebind ?g ?z ?k1 with _ => _ end) (match rebind ?g ?z ?k2 with _ => _ end) => assert (W : RP eq (rebind g z k1) (rebind g z k2)) by (apply rebind_rel; [go|intros; now apply V]) end.
    destruct W as [r1 r2 t [x1 x2 <-|y1 y2 E] Ot]; [apply IH; [solve [rfa]|exact Ot]|].
    apply Rerr_cases in E. destruct E as [(l1 & l2 & -> & -> & E)|[-> E]]; [apply IH; [destruct (_ || _); solve [rfa]|exact Ot]|].
    destruct y2; try noline; try rp. apply IH; [solve [rfa]|exact Ot].
  - apply Rerr_cases in E. destruct E as [(l1 & l2 & -> & -> & E)|[-> E]]; [apply IH; [destruct (last_is _ _); solve [rfa]|go]|]. destruct e2; try noline; rp.
Qed.
Definition extra_err (t : etype) (ex : extra_behavior) (used : list str) (k : str) (l : loc_item) (v : input) : list line_error :=
  if mem_str k used then [] else match ex with ExtraForbid => [new_error_loc t v l] | _ => [] end.
Lemma extra_err_rel t ex used k l v v' : Rlines (extra_err t ex used k l v) (extra_err t ex used k l v').
Proof. unfold extra_err. destruct (mem_str _ _); [apply Rlines_refl|]. destruct ex; try apply Rlines_refl. apply Rlines_one. Qed.
Lemma extras_scan c used es : fc_extra c <> ExtraAllow -> Forall good_key es -> forall out errors fset s,
  extras_loop c used es out errors fset s = (match scan (extra_err EExtraForbidden (fc_extra c) used) es with VOk l => VOk (out, errors ++ l, fset) | VErr e => VErr e end, s).
Proof.
  intros X. induction 1 as [|[k lo v|e] es G GS IH]; intros out errors fset s; cbn [extras_loop scan]; [now rewrite app_nil_r| |reflexivity].
  destruct G as [t G]. rewrite G. destruct (mem_str t used) eqn:ME.
  - rewrite IH. destruct (scan _ es); [|reflexivity]. unfold extra_err. now rewrite ME.
  - destruct (fc_extra c) eqn:EX; [congruence| |]; rewrite IH; (destruct (scan _ es); [|reflexivity]); unfold extra_err; rewrite ME; cbn [app]; [now rewrite <- app_assoc|reflexivity].
Qed.
Lemma td_extras_scan c used last p es : fc_extra c <> ExtraAllow -> Forall good_key es -> forall out errors s,
  td_extras c used last p es out errors s = (match scan (extra_err EExtraForbidden (fc_extra c) used) es with VOk l => VOk (out, errors ++ l) | VErr e => VErr e end, s).
Proof.
  intros X. induction 1 as [|[k lo v|e] es G GS IH]; intros out errors s; cbn [td_extras scan]; [now rewrite app_nil_r| |reflexivity].
  destruct G as [t G]. rewrite G. destruct (mem_str t used) eqn:ME.
  - rewrite IH. destruct (scan _ es); [|reflexivity]. unfold extra_err. now rewrite ME.
  - destruct (fc_extra c) eqn:EX; [congruence| |]; rewrite IH; (destruct (scan _ es); [|reflexivity]); unfold extra_err; rewrite ME; cbn [app]; [now rewrite <- app_assoc|reflexivity].
Qed.
Lemma rel_model_type : rel_fun (fun e => match le_type e with EDictType => set_type EModelType e | _ => e end).
Proof.
  exists (fun p => (match fst p with EDictType => EModelType | t => t end, snd p)). intros [t l i]. unfold error_kind. cbn [le_type]. destruct t; reflexivity.
Qed.
Lemma model_fields_rel c vm : keeps (model_fields_validate c vm) -> fc_extra c <> ExtraAllow -> Forall (fun f => rcv (f_cv f)) (fc_fields c) ->
  (forall st fa i i', differ i i' -> Rr Rmd (vm st fa i) (vm st fa i')) -> rv (model_fields_validate c vm).
Proof.
  intros K X FS HV. apply rv_of; [exact K|]. intros i i' s D I O. unfold model_fields_validate. cbv zeta.
  destruct (HV (strict_or (set_partial PartialOff s) (fc_strict c)) (unwrap_or (x_from_attributes (st_extra (set_partial PartialOff s))) (fc_from_attributes c)) _ _ D) as [md md' M|e1 e2 E].
  2:{ apply Rerr_cases in E. destruct E as [(l1 & l2 & -> & -> & E)|[-> E]]; [|destruct e2; try noline; rp].
      apply RP_intro; [|go]. apply RErr, RLines. unfold model_type_errors. apply Rlines_map; [apply rel_model_type|exact E]. }
  match goal with |- RP _ (match rebind ?g ?z ?k1 with _ => _ end) (match rebind ?g ?z ?k2 with _ => _ end) => assert (W : RP Rfa (rebind g z k1) (rebind g z k2)) by (apply rebind_rel; [go|intros; apply fields_loop_rel; solve [assumption | apply Rfa_init]]) end.
  destruct W as [r1 r2 t [a1 a2 [AD AS AU AE]|e1 e2 E] Ot]; [|rp].
  assert (FIN : forall errs1 errs2 out fset, Rlines errs1 errs2 -> RP eq
    (if is_nil errs1 then (VOk (PTuple [PDict (fa_dict a2); match fc_extra c with ExtraAllow => PDict (unwrap_or out []) | _ => PNone end; PSet (name_set fset)]), add_fields_set (length (fa_set a2)) t) else (VErr (LineErrors errs1), t))
    (if is_nil errs2 then (VOk (PTuple [PDict (fa_dict a2); match fc_extra c with ExtraAllow => PDict (unwrap_or out []) | _ => PNone end; PSet (name_set fset)]), add_fields_set (length (fa_set a2)) t) else (VErr (LineErrors errs2), t))).
  { intros x1 x2 out fset H. rewrite (Rlines_nil _ _ H). destruct (is_nil x2); rp. }
  rewrite AD, AS, AU, (rd_attr _ _ M). destruct (_ || _); [now apply FIN|].
  destruct (rd_iter _ _ M) as (es & es' & -> & -> & ES). destruct (entries_good _ _ ES) as [G1 G2]. rewrite !extras_scan by assumption.
  destruct (scan_rel (extra_err EExtraForbidden (fc_extra c) (fa_used a2)) _ _ (fun t l v v' _ => extra_err_rel _ _ _ t l v v') ES) as [l1 l2 L|e1 e2 E]; [|rp].
  apply FIN. now apply Rlines_app.
Qed.
Lemma typed_dict_rel c vm : keeps (typed_dict_validate c vm) -> fc_extra c <> ExtraAllow -> Forall (fun f => rcv (f_cv f)) (fc_fields c) ->
  Rread Rmd vm -> rv (typed_dict_validate c vm).
Proof.
  intros K X FS HV. apply rv_of; [exact K|]. intros i i' s D I O. unfold typed_dict_validate.
  destruct (HV (strict_or s (fc_strict c)) _ _ D) as [md md' M|e1 e2 E]; [|rp]. cbv zeta. rewrite O. cbn [is_active].
  match goal with |- RP _ (match rebind ?g ?z ?k1 with _ => _ end) (match rebind ?g ?z ?k2 with _ => _ end) => assert (W : RP Rfa (rebind g z k1) (rebind g z k2)) end.
  { apply rebind_rel; [go|]. intros s0 O0. 
    destruct (td_loop_rel c md md' i i' None (validate_by_alias_or s (fc_by_alias c)) (validate_by_name_or s (fc_by_name c)) (fc_fields c) M FS fa_init fa_init s0 Rfa_init O0) as [r1 r2 t [a1 a2 A|e1 e2 E] Ot]; [|rp].
    rewrite (rf_set _ _ A). rp. }
  destruct W as [r1 r2 t [a1 a2 [AD AS AU AE]|e1 e2 E] Ot]; [|rp].
  assert (FIN : forall errs1 errs2 out, Rlines errs1 errs2 -> RP eq
    (if is_nil errs1 then (VOk (PDict out), t) else (VErr (LineErrors errs1), t)) (if is_nil errs2 then (VOk (PDict out), t) else (VErr (LineErrors errs2), t))).
  { intros x1 x2 out H. rewrite (Rlines_nil _ _ H). destruct (is_nil x2); rp. }
  rewrite AD, AU, (rd_attr _ _ M). destruct (_ || _); [now apply FIN|].
  destruct (rd_iter _ _ M) as (es & es' & -> & -> & ES). destruct (entries_good _ _ ES) as [G1 G2]. rewrite !td_extras_scan by assumption.
  destruct (scan_rel (extra_err EExtraForbidden (fc_extra c) (fa_used a2)) _ _ (fun t l v v' _ => extra_err_rel _ _ _ t l v v') ES) as [l1 l2 L|e1 e2 E]; [|rp].
  apply FIN. now apply Rlines_app.
Qed.
