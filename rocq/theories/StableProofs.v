From Coq Require Import List NArith ZArith Bool Lia.
From Verif Require Import Base Float64 IntParse IntParseProofs Numbers NumbersSpec NumbersProofs BytesCodec Values VState LookupKey Collections Child Inputs Scalars Literal LiteralSpec LiteralProps Wrappers Union TaggedUnion Tuple ModelFields TypedDict Assign Arguments Classes Interp InterpSpec InterpProofs ConformSpec ConformProofs ConformProofs2 ConformProofs3 ConformProofs7 StableSpec.
Import ListNotations.
Open Scope nat_scope.

Notation calm := strict_call.
Definition badl (l : list line_error) : Prop := Exists (fun x => le_type x = ERecursionLoop) l.
Definition bad (e : verror) : Prop := exists l, e = LineErrors l /\ badl l.
Definition back {A} (lim : bool) (x : A) (r : vres A * state) : Prop :=
  calm (snd r) /\ (fst r = VOk x \/ lim = true /\ exists e, fst r = VErr e /\ bad e).
Definition fixes (lim : bool) (v : validator) (x : pyval) : Prop := forall s, calm s -> back lim x (v (IPy x) s).

Lemma bad_too_deep e : bad e -> nested_too_deep e.
Proof. intros (l & -> & B). apply Exists_exists in B. destruct B as (x & X & T). now exists l, x. Qed.
Lemma badl_nil : ~ badl []. Proof. intros B. inversion B. Qed.
Lemma badl_nonnil l : badl l -> is_nil l = false. Proof. destruct l; [intros B; now apply badl_nil in B|reflexivity]. Qed.
Lemma badl_l a b : badl a -> badl (a ++ b). Proof. intros B. apply Exists_app. now left. Qed.
Lemma badl_r a b : badl b -> badl (a ++ b). Proof. intros B. apply Exists_app. now right. Qed.
Lemma badl_outer f l : (forall x, le_type (f x) = le_type x) -> badl l -> badl (map f l).
Proof. intros H B. apply Exists_exists in B. destruct B as (x & X & T). apply Exists_exists. exists (f x). split; [now apply in_map|]. now rewrite H. Qed.
Lemma back_mono A (l1 l2 : bool) (x : A) r : (l1 = true -> l2 = true) -> back l1 x r -> back l2 x r.
Proof. intros H [C [Q|[L Q]]]; split; auto. Qed.
Lemma fixes_mono (l1 l2 : bool) v x : (l1 = true -> l2 = true) -> fixes l1 v x -> fixes l2 v x.
Proof. intros H F s C. eapply back_mono; [exact H|]. now apply F. Qed.
Lemma fixes_ok lim v x : (forall s, calm s -> exists s', v (IPy x) s = (VOk x, s') /\ calm s') -> fixes lim v x.
Proof. intros H s C. destruct (H s C) as (s' & -> & C'). split; [exact C'|now left]. Qed.

Lemma calm_floor e s : calm s -> calm (floor_exactness e s).
Proof. unfold floor_exactness. destruct (st_exactness s) as [[]|]; try destruct e; auto. Qed.
Lemma calm_partial s : calm s -> calm (set_partial PartialOff s). Proof. intros (A & B & C & _). repeat split; assumption. Qed.
Lemma calm_strict s d : calm s -> strict_or s d = true. Proof. intros (A & _). unfold strict_or. now rewrite A. Qed.
Lemma calm_off s : calm s -> st_partial s = PartialOff. Proof. now intros (_ & _ & _ & A). Qed.
Lemma calm_fields n s : calm s -> calm (add_fields_set n s). Proof. easy. Qed.
Lemma calm_data d s : calm s -> calm (set_extra (set_data d (st_extra s)) s). Proof. easy. Qed.
Lemma calm_name n s : calm s -> calm (set_extra (set_field_name n (st_extra s)) s). Proof. easy. Qed.

(** ** Leaves *)
Lemma sat_fits z : fits_i64 (sat_i64 z) = true.
Proof. unfold fits_i64, sat_i64. repeat match goal with |- context [Z.ltb ?a ?b] => destruct (Z.ltb_spec a b) | |- context [Z.leb ?a ?b] => destruct (Z.leb_spec a b) end; try reflexivity; lia. Qed.
Lemma as_i64_fits f : fits_i64 (f_as_i64 f) = true.
Proof. unfold f_as_i64. destruct f as [|[]| |]; try reflexivity; apply sat_fits. Qed.
Lemma number_int_as z : as_int (number_int z) = extract_int z.
Proof. unfold number_int, extract_int. destruct (fits_i64 z) eqn:F; reflexivity. Qed.
Lemma number_int_val z : int_value (number_int z) = z. Proof. unfold number_int. now destruct (fits_i64 z). Qed.
Definition plain_int (e : either_int) : Prop := as_int e = extract_int (int_value e).
Lemma str_int_plain md i t n : in_str_as_int md i t = VOk n -> plain_int n.
Proof. unfold in_str_as_int. destruct (str_as_int _ _); try discriminate. intros [= <-]. unfold plain_int. now rewrite number_int_as, number_int_val. Qed.
Lemma float_int_plain i f n : in_float_as_int i f = VOk n -> plain_int n.
Proof.
  unfold in_float_as_int, float_as_int. repeat match goal with |- context [if ?b then _ else _] => destruct b; try discriminate end.
  intros [= <-]. unfold plain_int, extract_int. cbn. now rewrite as_i64_fits.
Qed.
Lemma int_plain md st i n e : validate_int md st i = VOk (n, e) -> plain_int n.
Proof.
  unfold validate_int, lax, strictly. intros H.
  assert (N : forall z, plain_int (number_int z)) by (intros; unfold plain_int; now rewrite number_int_as, number_int_val).
  assert (B : forall b : bool, plain_int (EI64 (if b then 1 else 0)%Z)) by now intros [].
  repeat (match type of H with context [match ?x with _ => _ end] => destruct x eqn:? end; try discriminate); injection H as <- <-; try reflexivity;
    first [eapply str_int_plain; eassumption | eapply float_int_plain; eassumption | apply N | idtac]; reflexivity.
Qed.

Lemma int_stays md st c i s v s' lim : int_validate md st c i s = (VOk v, s') -> fixes lim (int_validate md st c) v.
Proof.
  unfold int_validate at 1, accept. destruct (validate_int md _ i) as [[n e]|] eqn:V; [|discriminate]. apply int_plain in V. intros H.
  assert (G : v = PInt (int_value n) /\ match c with None => True | Some c => validate_constrained_int c n = NOk n end).
  { destruct c as [c|]; [|injection H as <- _; now split]. destruct (validate_constrained_int c n) as [n'| |] eqn:Q; try discriminate.
    pose proof (constrained_int_ok _ _ _ Q) as [-> _]. injection H as <- _. now split. }
  destruct G as [-> G]. apply fixes_ok. intros s1 C. unfold int_validate, accept, validate_int. exists (floor_exactness Exact s1). split; [|now apply calm_floor].
  destruct c as [c|]; [|reflexivity]. replace (validate_constrained_int c (EPy (int_value n))) with (NOk (EPy (int_value n))); [reflexivity|].
  unfold validate_constrained_int in *. rewrite V in G. cbn [as_int]. cbv zeta in *. symmetry. destruct (ic_multiple_of c) as [m|].
  - destruct (int_rem (extract_int (int_value n)) m) as [r|]; [|discriminate]. destruct (is_eq (int_cmp r (Big 0))); [|discriminate]. destruct (check_int_bounds c (extract_int (int_value n))); [discriminate|reflexivity].
  - destruct (check_int_bounds c (extract_int (int_value n))); [discriminate|reflexivity].
Qed.
Lemma float_stays pf st c i s v s' lim : float_validate pf st c i s = (VOk v, s') -> fixes lim (float_validate pf st c) v.
Proof.
  unfold float_validate at 1, accept. destruct (validate_float pf _ i) as [[f e]|]; [|discriminate]. destruct (validate_constrained_float c f) eqn:Q; [discriminate|].
  intros [= <- _]. apply fixes_ok. intros s1 C. unfold float_validate, accept, validate_float. rewrite Q. eexists. split; [reflexivity|now apply calm_floor].
Qed.
Lemma bool_stays st i s v s' lim : bool_validate st i s = (VOk v, s') -> fixes lim (bool_validate st) v.
Proof.
  unfold bool_validate at 1, accept. destruct (validate_bool _ i) as [[f e]|]; [|discriminate].
  intros [= <- _]. apply fixes_ok. intros s1 C. eexists. split; [reflexivity|now apply calm_floor].
Qed.
Lemma str_stays ps fs tl tu c i s v s' lim : sc_to_lower c = false -> sc_to_upper c = false ->
  str_validate ps fs tl tu c i s = (VOk v, s') -> fixes lim (str_validate ps fs tl tu c) v.
Proof.
  intros L U. unfold str_validate at 1, accept. rewrite L, U. destruct (validate_str ps fs _ _ i) as [[t e]|]; [|discriminate]. cbv zeta. set (u := if sc_strip c then trim t else t).
  destruct (too_short _ _) eqn:A; [discriminate|]. destruct (too_long _ _) eqn:B; [discriminate|]. destruct (match sc_pattern c with Some p => p u | None => inl true end) as [[]|] eqn:PT; try discriminate.
  intros [= <- _]. apply fixes_ok. intros s1 C. unfold str_validate, accept, validate_str. cbv zeta.
  assert (W : (if sc_strip c then trim u else u) = u). { unfold u. destruct (sc_strip c); [apply trim_trim|reflexivity]. }
  rewrite W, A, B, PT, L, U. eexists. split; [reflexivity|now apply calm_floor].
Qed.
Lemma bytes_stays c i s v s' lim : bytes_validate c i s = (VOk v, s') -> fixes lim (bytes_validate c) v.
Proof.
  unfold bytes_validate at 1, accept. destruct (validate_bytes _ _ i) as [[b e]|] eqn:V; [|discriminate]. apply vbytes_bytes in V. destruct V as [l V].
  destruct (too_short _ _) eqn:A; [discriminate|]. destruct (too_long _ _) eqn:B; [discriminate|]. intros [= <- _]. apply fixes_ok. intros s1 C.
  unfold bytes_validate, accept. assert (W : exists e', validate_bytes (strict_or s1 (bc_strict c)) (bc_mode c) (IPy b) = VOk (b, e')).
  { unfold validate_bytes. destruct b; cbn in V |- *; try discriminate; [eauto|]. rewrite V. eauto. }
  destruct W as [e' ->]. rewrite A, B. eexists. split; [reflexivity|now apply calm_floor].
Qed.
Lemma literal_stays ps fs md l v lim : (forall v, In v l -> match v with PBool _ | PInt _ | PStr _ => True | _ => False end) -> (forall v, In v l -> ~ overlooked l v) ->
  In v l -> fixes lim (literal_validate ps fs md l) v.
Proof.
  intros T N J. apply fixes_ok. intros s C. exists s. split; [|exact C].
  apply (C36_same_type ps fs md l (IPy v) s); [|exact I|now apply N|now apply T|exact J].
  apply Forall_forall. intros x X. specialize (T x X). destruct x; try destruct T; exact I.
Qed.
Lemma any_stays v lim : fixes lim any_validate v.
Proof. apply fixes_ok. intros s C. eexists. split; [reflexivity|now apply calm_floor]. Qed.
Lemma none_stays i s v s' lim : none_validate i s = (VOk v, s') -> fixes lim none_validate v.
Proof. unfold none_validate at 1. destruct (is_none_input i); [|discriminate]. intros [= <- _]. apply fixes_ok. intros s1 C. exists s1. now split. Qed.
Lemma is_instance_stays sub cls i s v s' lim : is_instance_validate sub cls i s = (VOk v, s') -> fixes lim (is_instance_validate sub cls) v.
Proof.
  unfold is_instance_validate at 1. destruct i; try discriminate. destruct (is_instance sub v0 cls) eqn:Q; [|discriminate]. intros [= <- _].
  apply fixes_ok. intros s1 C. exists s1. unfold is_instance_validate. now rewrite Q.
Qed.
Lemma instance_model_stays sub c inner v lim : mo_revalidate c = RNever -> is_instance sub v (mo_cls c) = true -> fixes lim (model_validate sub c inner) v.
Proof.
  intros R J. apply fixes_ok. intros s C. exists s. unfold model_validate, instance_input. now rewrite J, R.
Qed.
Lemma instance_dataclass_stays sub c inner v lim : da_revalidate c = RNever -> is_instance sub v (da_cls c) = true -> fixes lim (dataclass_validate sub c inner) v.
Proof.
  intros R J. apply fixes_ok. intros s C. exists s. unfold dataclass_validate, instance_input. now rewrite J, R.
Qed.

(** ** Collections *)
Definition py_items (l : list pyval) : list (item input) := map (fun v => It (IPy v)) l.
Lemma vec_forward lim child ff xs : forall mc out errs k s, calm s -> (forall x, In x xs -> fixes lim child x) ->
  (forall mx, mc_max mc = Some mx -> mc_current mc + length xs <= mx) -> (errs = [] \/ lim = true /\ badl errs) ->
  let r := vec_loop child ff PartialOff mc out errs (enumerate_from false k (py_items xs)) s in
  calm (snd r) /\ (errs = [] /\ fst r = VOk (out ++ xs) \/ lim = true /\ exists e, fst r = VErr e /\ bad e).
Proof.
  induction xs as [|x xs IH]; intros mc out errs k s C H M B; cbn [py_items map enumerate_from vec_loop].
  - cbn. split; [exact C|]. destruct B as [->|[L B]]; [left; now rewrite app_nil_r|right]. split; [exact L|]. rewrite (badl_nonnil _ B). eexists. split; [reflexivity|]. now exists errs.
  - cbv zeta. cbn [andb]. cbv iota. destruct (H x (or_introl eq_refl) _ (calm_partial _ C)) as [C1 R]. set (s1 := set_partial PartialOff s) in *.
    assert (MI : exists mc', mc_incr mc = (VOk tt, mc') /\ mc_max mc' = mc_max mc /\ forall mx, mc_max mc = Some mx -> mc_current mc' + length xs <= mx).
    { unfold mc_incr. destruct (mc_max mc) as [mx|] eqn:MM; [|exists mc; repeat split; [assumption|discriminate]]. specialize (M _ eq_refl). cbn in M.
      destruct (Nat.ltb_spec mx (S (mc_current mc))); [lia|]. eexists. split; [reflexivity|]. split; [reflexivity|]. intros mx' [= <-]. cbn. lia. }
    destruct MI as (mc' & MI & MM & MB). rewrite MI.
    assert (H' : forall y, In y xs -> fixes lim child y) by (intros; apply H; now right).
    assert (MB' : forall mx, mc_max mc' = Some mx -> mc_current mc' + length xs <= mx) by (now rewrite MM).
    destruct (child (IPy x) s1) as [r s2]. cbn in C1, R. destruct R as [->|[L (e & -> & l & -> & BL)]].
    + specialize (IH mc' (out ++ [x]) errs (S k) s2 C1 H' MB' B). cbv zeta in IH. now rewrite <- app_assoc in IH.
    + assert (BB : badl (errs ++ map (with_outer (index_loc k)) l)) by (apply badl_r, badl_outer; [reflexivity|exact BL]).
      destruct ff; [split; [exact C1|]; right; split; [exact L|]; eexists; split; [reflexivity|]; eexists; split; [reflexivity|exact BB]|].
      specialize (IH mc' out _ (S k) s2 C1 H' MB' (or_intror (conj L BB))). cbv zeta in IH. destruct IH as [C2 [[Q _]|Q]]; [rewrite Q in BB; now apply badl_nil in BB|]. split; [exact C2|now right].
Qed.
Lemma min_check_pass c i mn n : (forall m, mn = Some m -> m <= n) -> min_check c i mn n = None.
Proof. intros H. unfold min_check. destruct mn as [m|]; [|reflexivity]. specialize (H m eq_refl). destruct (Nat.ltb_spec n m); [lia|reflexivity]. Qed.
Lemma max_check_pass c i mn n : (forall m, mn = Some m -> n <= m) -> max_check_err c i mn n = None.
Proof. intros H. unfold max_check_err. destruct mn as [m|]; [|reflexivity]. specialize (H m eq_refl). destruct (Nat.ltb_spec m n); [lia|reflexivity]. Qed.
Lemma items_py l : items_of (py_items l) = l.
Proof. unfold items_of, py_items. rewrite flat_map_concat_map, map_map. cbn. induction l as [|x l IH]; [reflexivity|]. cbn. now rewrite IH. Qed.

Lemma list_stays lim c child l : within (co_min c) (co_max c) (length l) -> (forall v x, child = Some v -> In x l -> fixes lim v x) ->
  fixes lim (list_validate c child validate_list) (PList l).
Proof.
  intros [W1 W2] H s C. unfold list_validate, validate_list. cbn [strip]. cbn [py_seq sq_items sq_len sq_exactness sq_py_list]. fold (py_items l). cbv zeta.
  pose proof (calm_floor Exact s C) as C1. destruct child as [v|].
  - unfold validate_iter_to_vec, enumerate_last_partial. rewrite (calm_off _ C1). cbn [is_active].
    match goal with |- context [vec_loop v ?ff PartialOff ?mc [] [] _ _] => pose proof (vec_forward lim v ff l mc [] [] 0 (floor_exactness Exact s) C1 (fun x => H v x eq_refl) W2 (or_introl eq_refl)) as Q end.
    cbv zeta in Q. destruct (vec_loop _ _ _ _ _ _ _ _) as [r s2]. cbn in Q. destruct Q as [C2 [[_ ->]|(L & e & -> & B)]].
    + rewrite min_check_pass by exact W1. split; [exact C2|now left].
    + split; [exact C2|right]. split; [exact L|]. now exists e.
  - rewrite items_py. rewrite min_check_pass by exact W1. rewrite max_check_pass by exact W2. split; [exact C1|now left].
Qed.

Lemma FOP_app A (R : A -> A -> Prop) l x m : ForallOrdPairs R (l ++ x :: m) -> Forall (fun y => R y x) l.
Proof.
  induction l as [|a l IH]; [constructor|]. intros H. inversion H as [|? ? HF HO]; subst. constructor; [|apply IH; assumption].
  rewrite Forall_forall in HF. apply HF, in_or_app. right. now left.
Qed.
Lemma set_add_len x l : length (set_add x l) <= S (length l).
Proof. unfold set_add. destruct (existsb _ _); [lia|]. rewrite app_length. cbn. lia. Qed.
Lemma set_add_new x l : Forall (fun y => py_eq y x = false) l -> set_add x l = l ++ [x].
Proof. intros H. unfold set_add. replace (existsb _ l) with false; [reflexivity|]. induction H as [|y l Q _ IH]; [reflexivity|]. cbn. now rewrite Q. Qed.
Lemma set_forward lim child ff c i0 mx all : distinct (fun x => x) all -> (forall m, mx = Some m -> length all <= m) -> (forall x, In x all -> hashable x = true /\ fixes lim child x) ->
  forall xs done st errs k s, all = done ++ xs -> calm s -> (errs = [] /\ st = done \/ lim = true /\ badl errs /\ length st <= length done) ->
  let r := set_loop child ff c i0 mx PartialOff st errs (enumerate_from false k (py_items xs)) s in
  back lim all r.
Proof.
  intros D M H. induction xs as [|x xs IH]; intros done st errs k s EA C B; cbn [py_items map enumerate_from set_loop].
  - rewrite app_nil_r in EA. subst done. split; [exact C|]. cbn. destruct B as [[-> ->]|(L & B & _)]; [now left|right]. split; [exact L|]. rewrite (badl_nonnil _ B). eexists. split; [reflexivity|]. now exists errs.
  - cbv zeta. cbn [andb]. cbv iota. destruct (H x) as [HX FX]. { rewrite EA. apply in_or_app. right. now left. }
    destruct (FX _ (calm_partial _ C)) as [C1 R]. set (s1 := set_partial PartialOff s) in *. unfold validate_add.
    assert (EA' : all = (done ++ [x]) ++ xs) by now rewrite <- app_assoc.
    assert (LD : S (length done) <= length all) by (rewrite EA, app_length; cbn; lia).
    destruct (child (IPy x) s1) as [r s2]. cbn in C1, R. destruct R as [->|[L (e & -> & l & -> & BL)]].
    + rewrite HX. assert (LS : forall m, mx = Some m -> length (set_add x st) <= m).
      { intros m Em. specialize (M m Em). pose proof (set_add_len x st). destruct B as [[_ ->]|(_ & _ & B)]; lia. }
      assert (CONT : back lim all (if ff && negb (is_nil errs) then (VErr (LineErrors errs), s2) else set_loop child ff c i0 mx PartialOff (set_add x st) errs (enumerate_from false (S k) (py_items xs)) s2)).
      { destruct B as [[-> ->]|(L & B & LB)].
        - rewrite andb_false_r. apply (IH (done ++ [x])); [exact EA'|exact C1|]. left. split; [reflexivity|]. apply set_add_new. rewrite EA in D. exact (FOP_app _ _ _ _ _ D).
        - destruct (ff && _); [split; [exact C1|right]; split; [exact L|]; eexists; split; [reflexivity|]; now exists errs|].
          apply (IH (done ++ [x])); [exact EA'|exact C1|]. right. split; [exact L|]. split; [exact B|]. rewrite app_length. pose proof (set_add_len x st). cbn. lia. }
      destruct mx as [m|]; [|exact CONT]. specialize (LS m eq_refl). destruct (Nat.ltb_spec m (length (set_add x st))); [lia|exact CONT].
    + assert (BB : badl (errs ++ map (with_outer (index_loc k)) l)) by (apply badl_r, badl_outer; [reflexivity|exact BL]).
      destruct (ff && _); [split; [exact C1|right]; split; [exact L|]; eexists; split; [reflexivity|]; eexists; split; [reflexivity|exact BB]|].
      apply (IH (done ++ [x])); [exact EA'|exact C1|]. right. split; [exact L|]. split; [exact BB|]. rewrite app_length. destruct B as [[_ ->]|(_ & _ & B)]; lia.
Qed.
Lemma set_stays lim (frozen : bool) c child l : within (co_min c) (co_max c) (length l) -> (forall x, In x l -> hashable x = true /\ fixes lim child x) -> distinct (fun x => x) l ->
  fixes lim (set_validate frozen c child (if frozen then validate_frozenset else validate_set)) (if frozen then PFrozenSet l else PSet l).
Proof.
  intros [W1 W2] H D s C. pose proof (calm_floor Exact s C) as C1.
  assert (G : forall k : collection, back lim l (validate_iter_to_set child (co_fail_fast c) k (IPy (if frozen then PFrozenSet l else PSet l)) (co_max c) (py_items l) (floor_exactness Exact s))).
  { intros k. unfold validate_iter_to_set, enumerate_last_partial. rewrite (calm_off _ C1). apply (set_forward lim child _ k _ (co_max c) l D W2 H l [] []); [reflexivity|exact C1|]. left. now split. }
  unfold set_validate. destruct frozen; cbn [validate_frozenset validate_set strip py_seq sq_items sq_exactness]; fold (py_items l); cbv zeta;
  match goal with |- context [validate_iter_to_set _ _ ?k _ _ _ _] => specialize (G k) end; destruct (validate_iter_to_set _ _ _ _ _ _ _) as [r s2]; unfold back in G; cbn [fst snd] in G;
  (destruct G as [C2 [->|(L & e & -> & B)]]; [rewrite min_check_pass by exact W1; split; [exact C2|now left]|split; [exact C2|right; split; [exact L|]; now exists e]]).
Qed.

Definition py_entries repr (d : list (pyval * pyval)) : list entry := map (fun kv => Entry (IPy (fst kv)) (py_loc repr (fst kv)) (IPy (snd kv))) d.
Lemma dict_set_new k v d : Forall (fun a => py_eq (fst a) k = false) d -> dict_set k v d = d ++ [(k, v)].
Proof. induction 1 as [|[a b] d Q _ IH]; [reflexivity|]. cbn in Q |- *. now rewrite Q, IH. Qed.
Lemma dict_forward lim repr kv vv all : distinct fst all -> (forall a b, In (a, b) all -> hashable a = true /\ fixes lim kv a /\ fixes lim vv b) ->
  forall xs done out errs k s, all = done ++ xs -> calm s -> (errs = [] /\ out = done \/ lim = true /\ badl errs) ->
  exists out' errs' s', dict_loop kv vv PartialOff out errs (enumerate_from false k (py_entries repr xs)) s = (VOk out', errs', s') /\ calm s' /\
    (errs' = [] /\ out' = all \/ lim = true /\ badl errs').
Proof.
  intros D H. induction xs as [|[a b] xs IH]; intros done out errs k s EA C B; cbn [py_entries map enumerate_from dict_loop].
  - rewrite app_nil_r in EA. subst done. now exists out, errs, s.
  - cbv zeta. cbn [andb fst snd]. cbv iota. destruct (H a b) as (HX & FA & FB). { rewrite EA. apply in_or_app. right. now left. }
    assert (EA' : all = (done ++ [(a, b)]) ++ xs) by now rewrite <- app_assoc.
    destruct (FA _ (calm_partial _ C)) as [C1 R]. set (s1 := set_partial PartialOff s) in *. 
    destruct (kv (IPy a) s1) as [r s2]. cbn in C1, R. destruct (FB _ (calm_partial _ C1)) as [C2 R2]. set (s3 := set_partial PartialOff s2) in *.
    destruct R as [->|[L (e & -> & l & -> & BL)]]; destruct (vv (IPy b) s3) as [r2 s4]; cbn in C2, R2; destruct R2 as [->|[L2 (e2 & -> & l2 & -> & BL2)]].
    + unfold set_item. rewrite HX. apply (IH (done ++ [(a, b)])); [exact EA'|exact C2|]. destruct B as [[-> ->]|B]; [left|now right]. split; [reflexivity|].
      apply dict_set_new. rewrite EA in D. exact (FOP_app _ _ _ _ _ D).
    + apply (IH (done ++ [(a, b)])); [exact EA'|exact C2|]. right. split; [exact L2|]. apply badl_r, badl_outer; [reflexivity|exact BL2].
    + apply (IH (done ++ [(a, b)])); [exact EA'|exact C2|]. right. split; [exact L|]. apply badl_r, badl_outer; [reflexivity|exact BL].
    + apply (IH (done ++ [(a, b)])); [exact EA'|exact C2|]. right. split; [exact L|]. apply badl_r, badl_outer; [reflexivity|exact BL2].
Qed.
Lemma dict_stays lim repr c kv vv d : within (co_min c) (co_max c) (length d) -> (forall a b, In (a, b) d -> hashable a = true /\ fixes lim kv a /\ fixes lim vv b) -> distinct fst d ->
  fixes lim (dict_validate c kv vv (dict_entries repr)) (PDict d).
Proof.
  intros [W1 W2] H D s C. unfold dict_validate, dict_entries, validate_dict. cbn [dict_items strip py_mdict md_iter]. fold (py_entries repr d).
  unfold enumerate_last_partial. rewrite (calm_off _ C). cbn [is_active].
  destruct (dict_forward lim repr kv vv d D H d [] [] [] 0 s eq_refl C (or_introl (conj eq_refl eq_refl))) as (out & errs & s' & -> & C' & Q).
  destruct Q as [[-> ->]|[L B]].
  - cbn [is_nil]. rewrite min_check_pass by exact W1. rewrite max_check_pass by exact W2. split; [exact C'|now left].
  - rewrite (badl_nonnil _ B). split; [exact C'|right]. split; [exact L|]. eexists. split; [reflexivity|]. now exists errs.
Qed.
