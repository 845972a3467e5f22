From Coq Require Import List NArith ZArith Bool Permutation Lia.
From Verif Require Import Base Float64 IntParse Numbers BytesCodec Values VState LookupKey Collections Child Inputs Scalars Literal Wrappers Union TaggedUnion Tuple ModelFields TypedDict Assign Arguments Classes Interp InterpSpec InterpProofs StrictSpec LooseSpec LooseQuiet LooseOff OrderSpec OrderProofs OrderProofs2 OrderProofs3 OrderProofs4.
Import ListNotations.
Open Scope nat_scope.

(** ** Scalars *)
Lemma accept_err A t t' i i' s k k' : t = t' -> off s -> RP eq (@accept A (val_err t i) s k) (@accept A (val_err t' i') s k').
Proof. intros -> O. unfold accept, val_err. apply RP_intro; [apply (Rr_val_err pyval eq)|exact O]. Qed.
Ltac scal lem := apply rv_of; [apply lem|]; intros i i' s D _ O; unfold bool_validate, int_validate, float_validate, bytes_validate; destruct D; match goal with |- context [strict_or ?z ?y] => destruct (strict_or z y) end; apply accept_err; solve [reflexivity | assumption].
Lemma bool_rel st : rv (bool_validate st). Proof. scal bool_off. Qed.
Lemma int_rel md st c : rv (int_validate md st c). Proof. scal int_off. Qed.
Lemma float_rel pf st c : rv (float_validate pf st c). Proof. scal float_off. Qed.
Lemma str_rel ps fs tl tu c : rv (str_validate ps fs tl tu c).
Proof. apply rv_of; [apply str_off|]; intros i i' s D _ O; unfold str_validate; destruct D; destruct (strict_or s (sc_strict c)), (sc_coerce_numbers c); apply accept_err; solve [reflexivity | assumption]. Qed.
Lemma bytes_rel c : rv (bytes_validate c). Proof. scal bytes_off. Qed.
Lemma none_rel : rv none_validate. Proof. apply rv_of; [apply none_off|]; intros i i' s D _ O; destruct D; unfold none_validate; cbn [is_none_input]; rp. Qed.
Lemma is_instance_rel sub c : rv (is_instance_validate sub c). Proof. apply rv_of; [apply is_instance_off|]; intros i i' s D _ O; destruct D; unfold is_instance_validate, is_instance; cbn [class_of]; rp. Qed.

(** ** Literals *)
Definition container (v : pyval) : Prop := match v with PList _ | PTuple _ | PDict _ => True | _ => False end.
Lemma differ_container i i' : differ i i' -> container (input_object i) /\ container (input_object i').
Proof. intros []; cbn; auto. Qed.
Lemma atomic_ne k v : atomic k -> container v -> py_eq k v = false.
Proof. destruct k; cbn [atomic]; try easy; intros _; destruct v; cbn [container]; easy. Qed.
Definition akeys (d : list (pyval * nat)) : Prop := Forall (fun kv => atomic (fst kv)) d.
Lemma pd_set_a k n d : atomic k -> akeys d -> akeys (pd_set k n d).
Proof. intros A. induction 1 as [|[k' v] d D DS IH]; cbn [pd_set]; [repeat constructor; exact A|]. destruct (py_eq _ _); constructor; auto. Qed.
Lemma pd_get_a v d : container v -> akeys d -> pd_get v d = None.
Proof. intros C. induction 1 as [|[k' n] d D DS IH]; cbn [pd_get]; [reflexivity|]. now rewrite atomic_ne. Qed.
Lemma values_a v d : container v -> akeys d -> values_slot d v = None.
Proof. intros C. induction 1 as [|[k' n] d D DS IH]; cbn [values_slot]; [reflexivity|]. now rewrite atomic_ne. Qed.
Record alk (lk : lookup) : Prop := { al_dict : akeys (lk_py_dict lk); al_values : akeys (lk_py_values lk); al_prims : akeys (lk_prims lk) }.
Lemma add_a k n lk : atomic k -> alk lk -> alk (lk_add k n lk).
Proof.
  intros A [D V P]. assert (B : alk (lk_add_bool k n lk)). { unfold lk_add_bool. destruct (strip k); split; cbn; auto. now apply pd_set_a. }
  destruct B as [D' V' P']. unfold lk_add. cbv zeta. destruct k; cbn [atomic hashable] in *; try easy; try (split; cbn [lk_py_dict lk_py_values lk_prims]; auto; now apply pd_set_a).
  destruct (fits_i64 z); split; cbn [lk_py_dict lk_py_values lk_prims]; auto; now apply pd_set_a.
Qed.
Lemma build_a ks : Forall atomic ks -> alk (lk_build ks).
Proof.
  intros F. unfold lk_build. assert (L : alk lk_empty) by (split; constructor). revert L. generalize 0, lk_empty. induction F as [|k ks K KS IH]; intros n lk L; cbn [lk_build_from]; [exact L|].
  apply IH. now apply add_a.
Qed.
Lemma lk_container ps fs md ks i : Forall atomic ks -> (exists v, i = IPy v /\ container v) \/ (exists i', differ i i') \/ (exists i', differ i' i) -> lk_validate ps fs md (lk_build ks) i = VOk None.
Proof.
  intros A H. destruct (build_a _ A) as [D V P].
  assert (C : container (input_object i)). { destruct H as [(v & -> & C)|[(i' & X)|(i' & X)]]; [exact C|apply (differ_container _ _ X)|apply (differ_container _ _ X)]. }
  assert (X : (exists v, i = IPy v /\ container v) \/ (exists l, i = IJson (JArr l)) \/ (exists l, i = IJson (JObj l)) \/ (exists v, i = IStrings v /\ container v)).
  { destruct H as [H|[(i' & X)|(i' & X)]]; [now left|destruct X..]; cbn in C; eauto 8. }
  assert (G1 : pd_lookup (input_object i) (lk_py_dict (lk_build ks)) = None) by (unfold pd_lookup; rewrite pd_get_a by assumption; now destruct (hashable _)).
  assert (G2 : pd_lookup (input_object i) (lk_prims (lk_build ks)) = None) by (unfold pd_lookup; rewrite pd_get_a by assumption; now destruct (hashable _)).
  assert (G3 : values_slot (lk_py_values (lk_build ks)) (input_object i) = None) by now apply values_a.
  assert (B1 : bool_slot (lk_build ks) i = None).
  { unfold bool_slot. destruct X as [(v & -> & X)|[(l & ->)|[(l & ->)|(v & -> & X)]]]; try reflexivity; destruct v; try easy; reflexivity. }
  assert (B2 : int_slot md (lk_build ks) i = VOk None).
  { unfold int_slot. destruct (lk_int _); [reflexivity|]. destruct X as [(v & -> & X)|[(l0 & ->)|[(l0 & ->)|(v & -> & X)]]]; try reflexivity; destruct v; try easy; reflexivity. }
  assert (B3 : str_slot ps fs (lk_build ks) i = None).
  { unfold str_slot. destruct X as [(v & -> & X)|[(l & ->)|[(l & ->)|(v & -> & X)]]]; try reflexivity; destruct v; try easy; reflexivity. }
  unfold lk_validate. rewrite B1, B2, B3, G1, G3, G2. reflexivity.
Qed.
Lemma literal_rel ps fs md l : Forall atomic l -> rv (literal_validate ps fs md l).
Proof.
  intros A. apply rv_of; [apply literal_off|]. intros i i' s D _ O. unfold literal_validate.
  rewrite !lk_container; eauto. rp.
Qed.

(** ** Wrappers *)
Lemma nullable_rel v : rv v -> rv (nullable v).
Proof. intros V i i' s I O. unfold nullable. rewrite (Rin_none _ _ I). destruct (is_none_input i'); [rp|now apply V]. Qed.
Lemma chain_rest_off l : Forall rv l -> forall v s, off s -> off (snd (chain_rest l v s)).
Proof.
  induction 1 as [|x l X L IH]; intros v s O; cbn [chain_rest]; [go|]. pose proof (rv_keeps _ X (IPy v) s O) as K.
  destruct (x _ s) as [[w|e] s']; cbn [snd] in *; [now apply IH|exact K].
Qed.
Lemma chain_rel l : Forall rv l -> rv (chain_validate l).
Proof.
  intros F i i' s I O. unfold chain_validate. destruct F as [|x l X L]; [rp|].
  destruct (X _ _ _ I O) as [r1 r2 t [a1 a2 <-|e1 e2 E] T]; [|rp]. apply RP_refl. now apply chain_rest_off.
Qed.
Lemma jop_rel j p : rv j -> rv p -> rv (json_or_python j p).
Proof. intros J P i i' s I O. unfold json_or_python. destruct (x_input_type _); auto. Qed.
Lemma los_rel b l t : rv l -> rv t -> rv (lax_or_strict b l t).
Proof.
  intros L T i i' s I O. unfold lax_or_strict. destruct (strict_or s b); [now apply T|]. destruct (st_exactness s); [|now apply L].
  destruct (T _ _ _ I O) as [r1 r2 u [a1 a2 <-|e1 e2 E] U]; [rp|]. apply Rerr_cases in E. destruct E as [(l1 & l2 & -> & -> & E)|[-> E]]; [apply L; [exact I|go]|].
  destruct e2; try rp; apply L; try exact I; go.
Qed.
Lemma custom_rel t v : rv v -> rv (custom_error t v).
Proof.
  intros V i i' s I O. unfold custom_error. destruct (V _ _ _ I O) as [r1 r2 u [a1 a2 <-|e1 e2 E] U]; [rp|].
  apply Rerr_cases in E. destruct E as [(l1 & l2 & -> & -> & E)|[-> E]]; [rp|]. destruct e2; rp.
Qed.
Lemma convert_rel e i i' : Rerr (convert_err e i) (convert_err e i').
Proof. destruct e; cbn [convert_err]; try apply REq; constructor; apply Rlines_one. Qed.
Lemma call_fun_rel f own v i i' s : Rr eq (call_fun f own v i s) (call_fun f own v i' s).
Proof. unfold call_fun. destruct (f v _); constructor; [reflexivity|apply convert_rel]. Qed.
Lemma after_rel f own v : rv v -> rv (function_after f own v).
Proof. intros V i i' s I O. unfold function_after. destruct (V _ _ _ I O) as [r1 r2 u [a1 a2 <-|e1 e2 E] U]; [|rp]. apply RP_intro; [apply call_fun_rel|exact U]. Qed.

(** The Python counterparts of reordered JSON documents. *)
Definition entry_py (kv : str * json) : pyval * pyval := (PStr (fst kv), json_to_py (snd kv)).
Lemma dict_set_new k v d : ~ In (PStr k) (map fst d) -> str_keys d -> dict_set (PStr k) v d = d ++ [(PStr k, v)].
Proof.
  intros N K. induction K as [|[a x] d [t A] K IH]; cbn [dict_set app]; [reflexivity|]. cbn [fst] in A. subst a. cbn [map fst] in N. rewrite eq_str.
  destruct (str_eqb t k) eqn:E; [apply str_eqb_eq in E; subst; destruct N; now left|]. rewrite IH; [reflexivity|]. intros H. apply N. now right.
Qed.
Lemma fill_new l : forall d, str_keys d -> NoDup (map fst l) -> (forall k, In k (map fst l) -> ~ In (PStr k) (map fst d)) ->
  fold_left (fun d kv => dict_set (PStr (fst kv)) (json_to_py (snd kv)) d) l d = d ++ map entry_py l.
Proof.
  induction l as [|[k j] l IH]; intros d K N H; cbn [fold_left map]; [now rewrite app_nil_r|]. inversion N as [|? ? N1 N2]; subst. cbn [fst snd].
  rewrite dict_set_new; [|apply H; now left|exact K]. rewrite IH.
  - now rewrite <- app_assoc.
  - apply Forall_app. split; [exact K|]. constructor; [now exists k|constructor].
  - exact N2.
  - intros t T. rewrite map_app, in_app_iff. intros [X|[X|[]]]; [apply (H t); [now right|exact X]|]. cbn [fst] in X. injection X as ->. contradiction.
Qed.
Lemma json_dict l : NoDup (map fst l) -> json_to_py (JObj l) = PDict (map entry_py l).
Proof. intros N. change (json_to_py (JObj l)) with (PDict (fold_left (fun d kv => dict_set (PStr (fst kv)) (json_to_py (snd kv)) d) l [])). rewrite fill_new; [reflexivity|constructor|exact N|]. intros k _ []. Qed.
Lemma json_py_reo : forall j j', jreordered j j' -> reordered (json_to_py j) (json_to_py j').
Proof.
  fix IH 3. intros j j' H. destruct H as [j|l l' F|l l1 l' N P F].
  - apply RO_same.
  - cbn [json_to_py]. apply RO_list. induction F as [|a b l l' A F IHF]; cbn [map]; constructor; [now apply IH|exact IHF].
  - assert (N1 : NoDup (map fst l1)) by now apply (Permutation_NoDup (Permutation_map fst P)).
    assert (EQ : map fst l1 = map fst l') by (clear - F; induction F as [|a b l l' [A B] F IHF]; cbn; congruence).
    rewrite !json_dict; [|now rewrite <- EQ|exact N].
    apply (RO_dict _ (map entry_py l1)).
    + apply Forall_forall. intros kv X. apply in_map_iff in X. destruct X as (x & <- & _). now exists (fst x).
    + rewrite map_map. cbn [entry_py fst]. rewrite <- (map_map fst PStr). clear - N. induction (map fst l) as [|k t IHt]; cbn [map]; constructor.
      * intros X. apply in_map_iff in X. destruct X as (x & [= ->] & X). now inversion N.
      * apply IHt. now inversion N.
    + now apply Permutation_map.
    + clear N P N1 EQ. induction F as [|a b l1 l' [A B] F IHF]; cbn [map]; constructor; [|exact IHF]. cbn [entry_py fst snd]. split; [congruence|now apply IH].
Qed.
Lemma object_reo i i' : rin i i' -> reordered (input_object i) (input_object i').
Proof. intros [j|v v' H|j j' H|v v' H]; [constructor|exact H|now apply json_py_reo|exact H]. Qed.
Lemma call_fun_obj f own i i' s : ignores_order f -> rin i i' -> Rr eq (call_fun f own (input_object i) i s) (call_fun f own (input_object i') i' s).
Proof. intros F I. unfold call_fun. rewrite (F _ _ (info_of own s) (object_reo _ _ I)). destruct (f _ _); constructor; [reflexivity|apply convert_rel]. Qed.
Lemma before_rel f own v : ignores_order f -> rv v -> rv (function_before f own v).
Proof. intros F V i i' s I O. unfold function_before. destruct (call_fun_obj f own i i' s F I) as [a b <-|e1 e2 E]; [apply V; [constructor|exact O]|rp]. Qed.
Lemma plain_rel f own : ignores_order f -> rv (function_plain f own).
Proof. intros F i i' s I O. unfold function_plain. apply RP_intro; [now apply call_fun_obj|exact O]. Qed.

(** ** Defaults *)
Inductive Ro : option (vres pyval * state) -> option (vres pyval * state) -> Prop :=
| Ro_none : Ro None None
| Ro_some p q : RP eq p q -> Ro (Some p) (Some q).
Lemma wd_rel n w : keeps (wd_inner w) -> rv (wd_inner w) -> forall i i' s, rin i i' -> off s -> Ro (wd_validate n w i s) (wd_validate n w i' s).
Proof.
  intros K V i i' s I O. destruct n as [|n]; [constructor|]. cbn [wd_validate]. cbv zeta.
  assert (U : forall e1 e2 s, Rerr e1 e2 -> off s ->
    Ro (match default_value (wd_validate n w) w None s with None => None | Some (VErr e', s') => Some (VErr e', s') | Some (VOk (Some v), s') => Some (VOk v, s') | Some (VOk None, s') => Some (VErr e1, s') end)
       (match default_value (wd_validate n w) w None s with None => None | Some (VErr e', s') => Some (VErr e', s') | Some (VOk (Some v), s') => Some (VOk v, s') | Some (VOk None, s') => Some (VErr e2, s') end)).
  { intros e1 e2 t E T. pose proof (proj2 (wd_cv_off n w K) None t T) as D. cbn [wd_cv cv_default] in D.
    destruct (default_value _ _ _ _) as [[[[v|]|e] s']|]; cbn [snd] in D; constructor; rp. }
  rewrite (Rin_undefined _ _ I). destruct (is_undefined i'); [apply U; [apply REq|exact O]|].
  destruct (V _ _ _ I O) as [r1 r2 t [a1 a2 <-|e1 e2 E] T]; [constructor; rp|].
  pose proof E as E0. apply Rerr_cases in E. destruct E as [(l1 & l2 & -> & -> & E)|[-> E]].
  - destruct (wd_on_error w); [constructor; rp|constructor; rp|now apply U].
  - destruct e2; try (constructor; rp); try (destruct (wd_on_error w)); try (constructor; rp); apply U; try assumption; apply REq.
Qed.
Lemma wd_cv_rel n w : rv (wd_inner w) -> rcv (wd_cv n w).
Proof.
  intros V. pose proof (rv_keeps _ V) as K. split; [|apply (wd_cv_off n w K)]. intros i i' s I O. cbn [wd_cv cv_validate].
  destruct (wd_rel n w K V i i' s I O); [rp|assumption].
Qed.

(** ** Unions *)
Definition Rmem (a b : str * list line_error) : Prop := fst a = fst b /\ Rlines (snd a) (snd b).
Lemma push_errors_rel custom e1 e2 c l1 l2 : Forall2 Rmem e1 e2 -> Rlines l1 l2 -> Forall2 Rmem (push_errors custom e1 c l1) (push_errors custom e2 c l2).
Proof. intros E L. unfold push_errors. destruct custom; [exact E|]. apply Forall2_app; [exact E|]. constructor; [now split|constructor]. Qed.
Lemma into_rel custom e1 e2 i i' : Forall2 Rmem e1 e2 -> Rerr (into_val_error custom e1 i) (into_val_error custom e2 i').
Proof.
  intros E. unfold into_val_error. destruct custom; constructor; [apply Rlines_one|]. induction E as [|[a x] [b y] l l' [A B] F IH]; cbn [flat_map]; [apply Rlines_refl|].
  cbn [fst snd] in *. subst b. apply Rlines_app; [rlines|exact IH].
Qed.
Inductive Rle : loop_end -> loop_end -> Prop :=
| RTried b e1 e2 s : Forall2 Rmem e1 e2 -> off s -> Rle (Tried b e1 s) (Tried b e2 s)
| RReturned r1 r2 s : Rr eq r1 r2 -> off s -> Rle (Returned r1 s) (Returned r2 s).
Lemma smart_loop_rel custom oe on i i' cs : rin i i' -> Forall (fun c => rv (ch_validator c)) cs -> forall best e1 e2 s, Forall2 Rmem e1 e2 -> off s ->
  Rle (smart_loop custom oe on cs i best e1 s) (smart_loop custom oe on cs i' best e2 s).
Proof.
  intros I. induction 1 as [|c cs C CS IH]; intros best e1 e2 s E O; cbn [smart_loop]; [now constructor|].
  destruct (C i i' (set_fields_set None (set_exactness (Some Exact) s)) I ltac:(go)) as [r1 r2 t [a1 a2 <-|x1 x2 X] T].
  - destruct (st_exactness t) as [[]|]; try (now apply IH). destruct (st_fields_set t); [now apply IH|]. constructor; [apply Rr_refl|go].
  - apply Rerr_cases in X. destruct X as [(l1 & l2 & -> & -> & X)|[-> X]].
    + apply IH; [|exact T]. destruct best; [exact E|now apply push_errors_rel].
    + destruct x2; try noline; constructor; try exact T; apply Rr_refl.
Qed.
Lemma smart_rel custom cs : Forall (fun c => rv (ch_validator c)) cs -> rv (validate_smart custom cs).
Proof.
  intros C i i' s I O. unfold validate_smart.
  destruct (smart_loop_rel custom (st_exactness s) (st_fields_set s) i i' cs I C None [] [] s ltac:(constructor) O) as [b e1 e2 t E T|r1 r2 t R T]; [|now constructor].
  cbv zeta. destruct b as [[[v e] [n|]]|]; try rp. apply RP_intro; [|go]. constructor. now apply into_rel.
Qed.
Lemma ltr_loop_rel custom i i' cs : rin i i' -> Forall (fun c => rv (ch_validator c)) cs -> forall e1 e2 s, Forall2 Rmem e1 e2 -> off s ->
  RP eq (ltr_loop custom cs i e1 s) (ltr_loop custom cs i' e2 s).
Proof.
  intros I. induction 1 as [|c cs C CS IH]; intros e1 e2 s E O; cbn [ltr_loop]; [apply RP_intro; [constructor; now apply into_rel|exact O]|].
  destruct (C i i' s I O) as [r1 r2 t [a1 a2 <-|x1 x2 X] T]; [rp|].
  apply Rerr_cases in X. destruct X as [(l1 & l2 & -> & -> & X)|[-> X]]; [apply IH; [now apply push_errors_rel|exact T]|]. destruct x2; try noline; rp.
Qed.
Lemma ltr_rel custom cs : Forall (fun c => rv (ch_validator c)) cs -> rv (validate_left_to_right custom cs).
Proof. intros C i i' s I O. unfold validate_left_to_right. apply ltr_loop_rel; try assumption. constructor. Qed.

Lemma invalid_tag_rel t t' i i' : Rr (A := pyval) eq (val_err (EUnionTagInvalid t) i) (val_err (EUnionTagInvalid t') i').
Proof. constructor. constructor. apply Permutation_refl. Qed.
Lemma find_call_rel repr ps fs md custom choices tag tag' i i' s : Forall atomic (map fst choices) -> Forall (fun c => rv (snd c)) choices ->
  reordered tag tag' -> rin i i' -> off s ->
  RP eq (find_call_validator repr ps fs md custom choices tag i s) (find_call_validator repr ps fs md custom choices tag' i' s).
Proof.
  intros A F T I O. unfold find_call_validator.
  assert (NO : RP (A := pyval) eq (match custom with Some t => val_err t i | None => val_err (EUnionTagInvalid (ps tag)) i end, s) (match custom with Some t => val_err t i' | None => val_err (EUnionTagInvalid (ps tag')) i' end, s)).
  { apply RP_intro; [|exact O]. destruct custom; [apply Rr_val_err|apply invalid_tag_rel]. }
  destruct T as [v|l l' L|l l' L|d d1 d' K N P L]; try (rewrite !lk_container by (solve [assumption | left; eexists; split; [reflexivity|exact Logic.I]]); exact NO).
  destruct (lk_validate _ _ _ _ _) as [[id|]|e]; [|exact NO|exact NO]. destruct (nth_error choices id) as [[k v0]|] eqn:NT; [|rp].
  apply nth_error_In in NT. rewrite Forall_forall in F. specialize (F _ NT). cbn [snd] in F. destruct (F _ _ _ I O) as [r1 r2 t [a1 a2 <-|x1 x2 X] T]; rp.
Qed.
Lemma tagged_rel repr ga ps fs md k fa custom choices : Forall atomic (map fst choices) -> Forall (fun c => rv (snd c)) choices ->
  keeps (tagged_union_validate repr ga ps fs md (DLookup k) fa custom choices) -> rv (tagged_union_validate repr ga ps fs md (DLookup k) fa custom choices).
Proof.
  intros A F K. apply rv_of; [exact K|]. intros i i' s D I O. unfold tagged_union_validate. cbv zeta.
  destruct (read_fields repr ga (strict_or s false) (unwrap_or (x_from_attributes (st_extra s)) fa) _ _ D) as [m m' M|e1 e2 E]; [|rp].
  destruct (rd_get _ _ M k) as [o1 o2 [|[p1 v1] [p2 v2] [Hp Hv]]|e1 e2 E]; [| |rp].
  - apply RP_intro; [|exact O]. unfold tag_not_found. destruct custom; apply Rr_val_err.
  - cbn [snd] in *. apply find_call_rel; try assumption. now apply object_reo.
Qed.

(** ** Models and dataclasses *)
Lemma post_init_rel f inst i i' : Rr eq (call_post_init f inst i) (call_post_init f inst i').
Proof. unfold call_post_init. destruct f as [f|]; [|apply Rr_refl]. destruct (f inst); constructor; [reflexivity|apply convert_rel]. Qed.
Lemma model_construct_rel c inner i i' ex s : mo_custom_init c = None -> rv inner -> rin i i' -> off s -> RP eq (model_construct c inner i ex s) (model_construct c inner i' ex s).
Proof.
  intros C V I O. unfold model_construct. rewrite C. unfold root_fields_set. rewrite (Rin_undefined _ _ I). destruct (mo_root c).
  - destruct (rebind_rel _ eq (set_field_name (Some root_name)) s (inner i) (inner i') O (fun t T => V i i' t I T)) as [r1 r2 t [a1 a2 <-|x1 x2 X] T]; [|rp].
    apply RP_intro; [apply post_init_rel|exact T].
  - destruct (V _ _ _ I O) as [r1 r2 t [a1 a2 <-|x1 x2 X] T]; [|rp]. apply RP_intro; [|exact T]. destruct (build_model _ _ _); [apply post_init_rel|apply Rr_refl].
Qed.
Lemma no_instance sub cls g i i' : differ i i' -> instance_input sub cls g i = None /\ instance_input sub cls g i' = None.
Proof. intros []; unfold instance_input, is_instance; cbn [class_of]; destruct g; split; reflexivity. Qed.
Lemma model_rel sub c inner : mo_custom_init c = None -> rv inner -> rv (model_validate sub c inner).
Proof.
  intros C V. apply rv_of; [apply model_off; now apply rv_keeps|]. intros i i' s D I O. unfold model_validate.
  destruct (no_instance sub (mo_cls c) (mo_origin c) _ _ D) as [-> ->]. apply model_construct_rel; try assumption. go.
Qed.
Lemma set_dict_rel c out i i' : Rr eq (set_dict_call c out i) (set_dict_call c out i').
Proof.
  unfold set_dict_call. destruct out as [| | | | | | |l| | | | |]; try apply Rr_refl. destruct l as [|d [|kw [|]]]; try apply Rr_refl. destruct (as_dict d); [|apply Rr_refl].
  destruct (da_post_init c) as [f|]; [|apply Rr_refl].
  destruct kw; try apply Rr_refl; match goal with |- context [f ?a ?b] => destruct (f a b) end; try apply Rr_refl; constructor; apply convert_rel.
Qed.
Lemma dataclass_rel sub c inner : rv inner -> rv (dataclass_validate sub c inner).
Proof.
  intros V. apply rv_of; [apply dataclass_off; now apply rv_keeps|]. intros i i' s D I O. unfold dataclass_validate.
  destruct (no_instance sub (da_cls c) (da_origin c) _ _ D) as [-> ->]. destruct (_ && _); [rp|].
  destruct (V _ _ _ I O) as [r1 r2 t [a1 a2 <-|x1 x2 X] T]; [|rp]. apply RP_intro; [apply set_dict_rel|go].
Qed.
