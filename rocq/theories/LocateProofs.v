From Coq Require Import List NArith ZArith Bool Lia.
From Verif Require Import Base Float64 IntParse Numbers BytesCodec Values VState LookupKey Collections Child Inputs Scalars Literal Wrappers Union TaggedUnion Tuple ModelFields TypedDict Assign Arguments Classes Interp InterpSpec CollectionsProofs LookupKeyProofs ArgumentsProofs StableSpec LocateSpec.
Import ListNotations.
Open Scope nat_scope.

(** ** Items *)
Lemma nth_at {A} (l : list A) n x : nth_error l n = Some x -> at_index l (Z.of_nat n) x.
Proof. intros H. exists n. auto. Qed.
Lemma neg_at {A} (l : list A) n x : nth_neg l n = Some x -> at_index l (- Z.of_nat n) x.
Proof.
  unfold nth_neg. destruct (Nat.leb_spec n (length l)) as [L|]; [|discriminate]. intros H. exists (length l - n). split; [exact H|]. right.
  assert (length l - n < length l) by (apply nth_error_Some; congruence). lia.
Qed.
Lemma at_nth {A} (l : list A) n x : at_index l (Z.of_nat n) x -> nth_error l n = Some x.
Proof.
  intros (m & N & [H|H]); [replace n with m by lia; exact N|]. assert (m < length l) by (apply nth_error_Some; congruence). lia.
Qed.
Lemma at_neg {A} (l : list A) n x : 1 <= n -> at_index l (- Z.of_nat n) x -> nth_neg l n = Some x.
Proof.
  intros P (m & N & [H|H]); [lia|]. assert (m < length l) by (apply nth_error_Some; congruence). unfold nth_neg.
  destruct (Nat.leb_spec n (length l)); [|lia]. replace (length l - n) with m by lia. exact N.
Qed.

Definition good_item (p : path_item) : Prop := match p with PiNeg n => 1 <= n | _ => True end.

Lemma get_item_sub v p x : py_get_item v p = Some x -> subscript (IPy v) (to_loc_item p) (IPy x).
Proof.
  assert (W : forall c v' l y, subscript (IPy v') l (IPy y) -> subscript (IPy (PSub c v')) l (IPy y)).
  { intros c v' l y H. inversion H; subst; [eapply sub_list|eapply sub_bytes|eapply sub_dict_str|eapply sub_dict_int]; cbn [strip]; eassumption. }
  induction v; cbn [py_get_item]; try discriminate; intros H.
  - destruct p; [discriminate| |]; cbn [to_loc_item].
    + destruct (nth_pos b n) as [y|] eqn:N; [|discriminate]. injection H as <-. apply sub_bytes with b; [reflexivity|now apply nth_at].
    + destruct (nth_neg b n) as [y|] eqn:N; [|discriminate]. injection H as <-. apply sub_bytes with b; [reflexivity|now apply neg_at].
  - destruct p; [discriminate| |]; apply sub_list with l; cbn; auto; [now apply nth_at|now apply neg_at].
  - destruct p; [discriminate| |]; apply sub_list with l; cbn; auto; [now apply nth_at|now apply neg_at].
  - destruct p; cbn [to_loc_item item_key] in *; [eapply sub_dict_str|eapply sub_dict_int|eapply sub_dict_int]; cbn; eauto.
  - apply W. auto.
Qed.
Lemma strip_get v p : py_get_item v p = py_get_item (strip v) p.
Proof. induction v; try reflexivity. exact IHv. Qed.
Lemma sub_get_item v p x : good_item p -> subscript (IPy v) (to_loc_item p) x -> exists y, x = IPy y /\ py_get_item v p = Some y.
Proof.
  intros G H. rewrite strip_get. destruct p; cbn [to_loc_item good_item] in *; inversion H; subst; eexists; split; try reflexivity;
    repeat match goal with O : _ \/ _ |- _ => destruct O end;
    match goal with Q : strip v = _ |- _ => rewrite Q end; cbn [py_get_item item_key]; auto using at_nth, at_neg;
    unfold nth_pos; try (erewrite at_nth by eassumption; reflexivity); erewrite at_neg by eassumption; reflexivity.
Qed.
Lemma json_item_sub j p x : json_get_item j p = Some x -> subscript (IJson j) (to_loc_item p) (IJson x).
Proof.
  destruct j; try discriminate; destruct p; try discriminate; cbn [json_get_item to_loc_item]; intros H.
  - now apply sub_array, nth_at. - now apply sub_array, neg_at. - now apply sub_object.
Qed.
Lemma sub_json_item j p x : good_item p -> subscript (IJson j) (to_loc_item p) x -> exists y, x = IJson y /\ json_get_item j p = Some y.
Proof.
  intros G H. destruct p; cbn [to_loc_item good_item] in *; inversion H; subst; eexists; split; try reflexivity; cbn [json_get_item]; auto using at_nth.
  now apply at_neg.
Qed.

Definition path_loc (p : lookup_path) : list loc_item := LStr (lp_first p) :: map to_loc_item (lp_rest p).

Section Fold.
Context {V : Type} (inj : V -> input) (get : V -> path_item -> option V).
Hypothesis G1 : forall v p x, get v p = Some x -> subscript (inj v) (to_loc_item p) (inj x).
Hypothesis G2 : forall v p x, good_item p -> subscript (inj v) (to_loc_item p) x -> exists y, x = inj y /\ get v p = Some y.
Lemma fold_subs rest : forall v x, try_fold get v rest = Some x -> subscripts (inj v) (map to_loc_item rest) (inj x).
Proof.
  induction rest as [|p rest IH]; cbn [try_fold map]; intros v x H; [injection H as <-; constructor|].
  destruct (get v p) as [w|] eqn:W; [|discriminate]. econstructor; [eapply G1, W|auto].
Qed.
Lemma subs_fold rest : Forall good_item rest -> forall v x, subscripts (inj v) (map to_loc_item rest) x -> try_fold get v rest <> None.
Proof.
  induction rest as [|p rest IH]; cbn [try_fold map]; intros F v x H; [discriminate|]. inversion F; subst. inversion H; subst.
  destruct (G2 _ _ _ H2 H5) as (y & -> & ->). now apply (IH H3 y x).
Qed.
End Fold.

(** ** Keys *)
Definition good_path (p : lookup_path) : Prop := Forall good_item (lp_rest p).
Inductive good_key : lookup_key -> Prop :=
| gk_simple p : lp_rest p = [] -> good_key (Simple p)
| gk_choice p q : lp_rest p = [] -> lp_rest q = [] -> good_key (Choice p q)
| gk_paths p ps : good_path p -> good_key (PathChoices (p :: ps)).

Lemma item_good a p : item_from_py a = BOk p -> good_item p.
Proof.
  destruct a as [s|z| |]; try discriminate; cbn [item_from_py]; [intros [= <-]; exact I|].
  destruct ((0 <=? z)%Z && _); [intros [= <-]; exact I|]. destruct ((- 2 ^ 63 <=? z)%Z && (z <? 0)%Z) eqn:B; [|discriminate]. intros [= <-]. cbn.
  apply andb_prop in B. destruct B as [_ B]. apply Z.ltb_lt in B. lia.
Qed.
Lemma collect_forall {A B} (f : A -> build_res B) (P : B -> Prop) l : (forall a b, f a = BOk b -> P b) -> forall r, collect f l = BOk r -> Forall P r.
Proof.
  intros H. induction l as [|a l IH]; cbn [collect]; intros r; [intros [= <-]; constructor|].
  destruct (f a) eqn:F; [|discriminate]. destruct (collect f l) eqn:C; [|discriminate]. intros [= <-]. constructor; eauto.
Qed.
Lemma path_good a p : path_from_list a = BOk p -> good_path p.
Proof.
  destruct a as [| |l|]; try discriminate. destruct l as [|[f| | |] rest]; try discriminate. cbn [path_from_list].
  destruct (collect _ _) eqn:C; [|discriminate]. intros [= <-]. exact (collect_forall _ _ _ item_good _ C).
Qed.
Lemma key_good a alt k : key_from_py a alt = BOk k -> good_key k.
Proof.
  destruct a as [s|z|l|]; try discriminate; cbn [key_from_py].
  - destruct alt; intros [= <-]; constructor; reflexivity.
  - assert (Q : forall r, match l with [] => BErr | ASt _ :: _ => match path_from_list (ALi l) with BOk p => BOk [p] | BErr => BErr end | _ => collect path_from_list l end = BOk r ->
        exists p ps, r = p :: ps /\ good_path p).
    { intros r. destruct l as [|a l]; [discriminate|].
      assert (W : collect path_from_list (a :: l) = BOk r -> exists p ps, r = p :: ps /\ good_path p).
      { cbn [collect]. destruct (path_from_list a) eqn:P; [|discriminate]. destruct (collect _ l); [|discriminate]. intros [= <-]. eexists _, _. split; [reflexivity|]. exact (path_good _ _ P). }
      destruct a; try exact W. destruct (path_from_list _) eqn:P; [|discriminate]. intros [= <-]. eexists _, _. split; [reflexivity|]. exact (path_good _ _ P). }
    destruct (match l with [] => BErr | _ => _ end) as [ps|]; [|discriminate]. destruct (Q _ eq_refl) as (p & q & -> & G). destruct alt; intros [= <-]; constructor; exact G.
Qed.
Lemma select_good name keys ba bn k : built name keys -> collection_select keys ba bn = BOk k -> good_key k.
Proof.
  intros (alias & B). unfold collection_new in B. destruct alias as [a|].
  - destruct (key_from_py a None) as [k1|] eqn:K1; [|discriminate]. destruct (key_from_py a (Some name)) as [k2|] eqn:K2; [|discriminate]. injection B as <-.
    unfold collection_select. cbn. destruct ba, bn; intros [= <-]; try (eapply key_good; eassumption); constructor; reflexivity.
  - injection B as <-. unfold collection_select. cbn. destruct ba, bn; intros [= <-]; constructor; reflexivity.
Qed.
Lemma select_unaliased name keys ba bn k : unaliased name keys -> collection_select keys ba bn = BOk k -> k = Simple (path_from_str name).
Proof. intros [= <-]. unfold collection_select. cbn. destruct ba, bn; now intros [= <-]. Qed.
Lemma unaliased_built name keys : unaliased name keys -> built name keys. Proof. now exists None. Qed.

(** Errors about a whole path. *)
Lemma apply_loc p e n : loc_path (le_loc (apply_error_loc p e true n)) = path_loc p ++ loc_path (le_loc e) /\
  le_type (apply_error_loc p e true n) = le_type e /\ le_input (apply_error_loc p e true n) = le_input e.
Proof.
  unfold apply_error_loc, path_loc. generalize (lp_rest p) as r. intros r.
  assert (F : forall r e, loc_path (le_loc (fold_left (fun e i => with_outer (to_loc_item i) e) (rev r) e)) = map to_loc_item r ++ loc_path (le_loc e) /\
     le_type (fold_left (fun e i => with_outer (to_loc_item i) e) (rev r) e) = le_type e /\ le_input (fold_left (fun e i => with_outer (to_loc_item i) e) (rev r) e) = le_input e).
  { clear. induction r as [|i r IH]; intros e; [auto|]. cbn [rev map]. rewrite fold_left_app. cbn [fold_left].
    destruct (with_outer_path (to_loc_item i) (fold_left (fun e i => with_outer (to_loc_item i) e) (rev r) e)) as (-> & -> & ->). destruct (IH e) as (-> & -> & ->). auto. }
  destruct (with_outer_path (LStr (lp_first p)) (fold_left (fun e i => with_outer (to_loc_item i) e) (rev r) e)) as (-> & -> & ->).
  destruct (F r e) as (-> & -> & ->). auto.
Qed.
Lemma key_error_loc k t i n : good_key k -> exists p e, first_of k = Some p /\ key_error k t i true n = Some e /\ loc_path (le_loc e) = path_loc p /\ le_type e = t /\ le_input e = i.
Proof.
  intros G. assert (F : exists p, first_of k = Some p) by (destruct G; cbn; eauto). destruct F as (p & F). unfold key_error. rewrite F. eexists p, _. split; [reflexivity|]. split; [reflexivity|]. cbn.
  split; [|auto]. unfold path_loc. rewrite rev_app_distr, map_rev, rev_involutive. reflexivity.
Qed.

Section Locate.
Variable E : env.
Variable label : loc_item -> Prop.
Notation step := (step E).
Notation leads := (leads E label).
Notation located := (located E label).

(** ** Paths *)
Lemma leads_app p : forall i j q x, leads i p j -> leads j q x -> leads i (p ++ q) x.
Proof. intros i j q x H. induction H; intros K; cbn [app]; [exact K|eapply leads_step|eapply leads_label|eapply leads_key]; eauto. Qed.
Lemma leads_one i l j : step i l j -> leads i [l] j.
Proof. intros H. eapply leads_step; [exact H|constructor]. Qed.
Lemma subs_leads i p x : subscripts i p x -> leads i p x.
Proof. intros H. induction H; [constructor|]. eapply leads_step; [apply step_sub; eassumption|assumption]. Qed.

Lemma located_via i p j e e' : leads i p j -> located j e -> le_type e' = le_type e -> le_input e' = le_input e ->
  loc_path (le_loc e') = p ++ loc_path (le_loc e) -> located i e'.
Proof.
  intros L H T I P. destruct H as [x H S|p0 j0 k rest M H H0 S A|p0 j0 n M H H0 S A|p0 q j0 o r w k x M H Q H0 O S A R|p0 j0 k key M H H0 K S];
    unfold shows in *; rewrite <- I in S; rewrite ?H in P; rewrite ?app_assoc in P.
  - eapply loc_here; [rewrite P; eapply leads_app; eauto|exact S].
  - eapply loc_missing; [rewrite T; exact M|exact P|eapply leads_app; eauto|exact S|exact A].
  - eapply loc_positional; [rewrite T; exact M|exact P|eapply leads_app; eauto|exact S|exact A].
  - eapply loc_attribute; [rewrite T; exact M|exact P|exact Q|eapply leads_app; eauto|exact O|exact S|exact A|exact R].
  - eapply loc_key; [rewrite T; exact M|exact P|eapply leads_app; eauto|exact K|exact S].
Qed.
Lemma located_new i t x : input_object x = input_object i -> located i (new_error t x).
Proof. intros H. eapply loc_here; [constructor|exact H]. Qed.
Lemma located_new_loc i t l x : step i l x -> located i (new_error_loc t x l).
Proof. intros H. eapply loc_here; [exact (leads_one _ _ _ H)|reflexivity]. Qed.
Lemma located_outer i l j e : step i l j -> located j e -> located i (with_outer l e).
Proof.
  intros S H. destruct (with_outer_path l e) as (P & T & I). eapply located_via; [exact (leads_one _ _ _ S)|exact H|exact T|exact I|exact P].
Qed.
Lemma located_label i l e : label l -> located i e -> located i (with_outer l e).
Proof.
  intros S H. destruct (with_outer_path l e) as (P & T & I). eapply located_via; [apply leads_label; [exact S|constructor]|exact H|exact T|exact I|exact P].
Qed.
Lemma located_key i l k e : key_of E i l k -> located k e -> located i (with_outer l (with_outer key_marker e)).
Proof.
  intros S H. destruct (with_outer_path key_marker e) as (P & T & I). destruct (with_outer_path l (with_outer key_marker e)) as (P' & T' & I').
  eapply located_via with (p := [l; key_marker]); [eapply leads_key; [exact S|constructor]|exact H|congruence|congruence|]. rewrite P', P. reflexivity.
Qed.
Lemma located_map {A} (f : A -> line_error) (P : A -> Prop) i l : (forall a, P a -> located i (f a)) -> Forall P l -> Forall (located i) (map f l).
Proof. intros H F. rewrite Forall_map. eapply Forall_impl; [exact H|exact F]. Qed.

(** ** Mappings *)
Record md_at (i : input) (md : mdict) : Prop := {
  ma_get : forall k p x, good_key k -> md_get md k = VOk (Some (p, x)) -> python_or_json x /\ leads i (path_loc p) x;
  ma_simple : forall p q x, md_get md (Simple p) = VOk (Some (q, x)) -> q = p;
  ma_none : forall k p, good_key k -> first_of k = Some p -> md_get md k = VOk None -> absent E i (path_loc p);
  ma_err : forall k e, md_get md k = VErr e -> exists o r w n x, e = LineErrors [new_error EGetAttributeError (IPy o)] /\ object_of i o /\
     attr_items E o r w /\ e_getattr E w n = ARaise x;
  ma_iter : forall es, md_iter md = VOk es -> Forall (fun en => match en with Entry k kl v => python_or_json k /\ python_or_json v /\ key_of E i kl k /\ step i kl v | BadEntry _ => False end) es;
  ma_iter_ok : exists es, md_iter md = VOk es }.

Lemma py_loc_str k s : as_str k = Some s -> py_loc (e_repr E) k = LStr s.
Proof.
  intros H. assert (S : strip k = PStr s) by (induction k; try discriminate; [now injection H as ->|auto]). unfold py_loc. now rewrite S.
Qed.
Lemma subs_nil_inv i x : subscripts i [] x -> i = x. Proof. now inversion 1. Qed.
Lemma as_str_strip k s : as_str k = Some s -> strip k = PStr s.
Proof. intros H. induction k; try discriminate; [now injection H as ->|auto]. Qed.

(** Lookup in a dict that the first step reaches. *)
Section Dict.
Variables (i : input) (d : list (pyval * pyval)).
Hypothesis L : forall k x, dict_get (PStr k) d = Some x -> step i (LStr k) (IPy x).
Lemma first_get ps p v : first_path (fun s => dict_get (PStr s) d) py_get_item ps = Some (p, v) -> leads i (path_loc p) (IPy v).
Proof.
  induction ps as [|q ps IH]; cbn [first_path]; [discriminate|]. destruct (dict_get _ d) as [w|] eqn:G; [|exact IH].
  destruct (try_fold _ _ _) as [x|] eqn:F; [|exact IH]. intros [= <- <-]. unfold path_loc. eapply leads_step; [apply L, G|]. apply subs_leads.
  exact (fold_subs IPy py_get_item get_item_sub _ _ _ F).
Qed.
Lemma dict_at k p v : good_key k -> py_get_dict_item k d = Some (p, v) -> leads i (path_loc p) (IPy v).
Proof.
  intros G. destruct G as [q R|q q' R R'|q ps R]; cbn [py_get_dict_item].
  - destruct (dict_get _ d) eqn:H; [|discriminate]. intros [= <- <-]. unfold path_loc. rewrite R. apply leads_one, L, H.
  - destruct (dict_get _ d) eqn:H; [|destruct (dict_get _ d) eqn:H2 in |- *; [|discriminate]]; intros [= <- <-]; unfold path_loc; rewrite ?R, ?R'; apply leads_one, L; assumption.
  - apply first_get.
Qed.
Lemma dict_none k p x y : good_key k -> first_of k = Some p -> py_get_dict_item k d = None -> dict_get (PStr (lp_first p)) d = Some x -> ~ subscripts (IPy x) (map to_loc_item (lp_rest p)) y.
Proof.
  intros G F N H S. destruct G as [q R|q q' R R'|q ps R]; cbn [py_get_dict_item first_of hd_error] in *; injection F as ->.
  - rewrite H in N. discriminate.
  - rewrite H in N. discriminate.
  - cbn [first_path] in N. rewrite H in N. pose proof (subs_fold IPy py_get_item sub_get_item _ R _ _ S). destruct (try_fold _ _ _); [discriminate|contradiction].
Qed.
End Dict.

Lemma dict_step v d k x : strip v = PDict d -> dict_get (PStr k) d = Some x -> step (IPy v) (LStr k) (IPy x).
Proof. intros S H. apply step_sub. eapply sub_dict_str; eauto. Qed.
Lemma kwarg_step v args kw k x : as_args_kwargs v = Some (args, Some kw) -> dict_get (PStr k) kw = Some x -> step (IPy v) (LStr k) (IPy x).
Proof. intros S H. apply dict_get_str_key in H. destruct H as (key & I & A). rewrite <- (py_loc_str _ _ A). eapply step_kwarg; eauto. Qed.

Lemma args_obj v a : as_args_kwargs v = Some a -> strip v = v /\ exists c l, v = PObj c l.
Proof. destruct v; try discriminate. intros _. split; [reflexivity|eauto]. Qed.
Lemma dict_md_at v d : strip v = PDict d -> md_at (IPy v) (py_mdict (e_repr E) d).
Proof.
  intros S. constructor; cbn [py_mdict md_get md_iter].
  - intros k p x G. destruct (py_get_dict_item k d) as [[p0 x0]|] eqn:H; [|discriminate]. intros [= <- <-]. split; [exact I|]. eapply dict_at; [|exact G|exact H]. intros n y. now apply dict_step.
  - intros p q x. cbn [py_get_dict_item]. destruct (dict_get _ _); [|discriminate]. now intros [= <- _].
  - intros k p G F. destruct (py_get_dict_item k d) as [[p0 x0]|] eqn:H; [discriminate|]. intros _. apply absent_data; [cbn; now rewrite S|].
    intros A. unfold path_loc in A. inversion A; subst.
    + match goal with Q : subscript _ _ _ |- _ => inversion Q; subst end. assert (d0 = d) by congruence. subst. eapply dict_none; eauto.
    + match goal with Q : as_args_kwargs _ = Some _ |- _ => apply args_obj in Q; destruct Q as (_ & ? & ? & ->); discriminate S end.
  - discriminate.
  - intros es [= <-]. rewrite Forall_map. apply Forall_forall. intros [k x] H. cbn. repeat split; [econstructor; eauto|eapply step_entry; eauto].
  - eauto.
Qed.
Lemma kwargs_md_at v args kw : as_args_kwargs v = Some (args, Some kw) -> md_at (IPy v) (py_mdict (e_repr E) kw).
Proof.
  intros S. pose proof (args_obj _ _ S) as (SV & c & l & VV). constructor; cbn [py_mdict md_get md_iter].
  - intros k p x G. destruct (py_get_dict_item k kw) as [[p0 x0]|] eqn:H; [|discriminate]. intros [= <- <-]. split; [exact I|]. eapply dict_at; [|exact G|exact H]. intros n y. now apply kwarg_step with args.
  - intros p q x. cbn [py_get_dict_item]. destruct (dict_get _ _); [|discriminate]. now intros [= <- _].
  - intros k p G F. destruct (py_get_dict_item k kw) as [[p0 x0]|] eqn:H; [discriminate|]. intros _. apply absent_data; [cbn; rewrite SV, VV; rewrite VV in S; congruence|].
    intros A. unfold path_loc in A. inversion A; subst.
    + match goal with Q : subscript _ _ _ |- _ => inversion Q; subst end. discriminate.
    + match goal with Q : as_args_kwargs _ = Some (_, Some ?q) |- _ => assert (q = kw) by congruence; subst end. eapply dict_none; eauto.
  - discriminate.
  - intros es [= <-]. rewrite Forall_map. apply Forall_forall. intros [k x] H. cbn. repeat split; [eapply key_kwarg; eauto|eapply step_kwarg; eauto].
  - eauto.
Qed.

Lemma json_md_at l : md_at (IJson (JObj l)) (json_mdict l).
Proof.
  constructor; cbn [json_mdict md_get md_iter].
  - intros k p x G. destruct (json_get k l) as [[p0 x0]|] eqn:H; [|discriminate]. intros [= <- <-]. split; [exact I|].
    assert (ST : forall k x, json_last k l = Some x -> step (IJson (JObj l)) (LStr k) (IJson x)) by (intros; apply step_sub; now apply sub_object).
    destruct G as [q R|q q' R R'|q ps R]; cbn [json_get] in H.
    + destruct (json_last _ l) eqn:Q; [|discriminate]. injection H as <- <-. unfold path_loc. rewrite R. apply leads_one, ST, Q.
    + destruct (json_last _ l) eqn:Q; [|destruct (json_last _ l) eqn:Q2 in H; [|discriminate]]; injection H as <- <-; unfold path_loc; rewrite ?R, ?R'; apply leads_one, ST; assumption.
    + revert H. generalize (q :: ps) as qs. clear - ST. induction qs as [|q qs IH]; cbn [first_path]; [discriminate|]. destruct (json_last _ l) as [w|] eqn:G; [|exact IH].
      destruct (try_fold _ _ _) as [y|] eqn:F; [|exact IH]. intros [= <- <-]. unfold path_loc. eapply leads_step; [apply ST, G|]. apply subs_leads.
      exact (fold_subs IJson json_get_item json_item_sub _ _ _ F).
  - intros p q x. cbn [json_get]. destruct (json_last _ _); [|discriminate]. now intros [= <- _].
  - intros k p G F. destruct (json_get k l) as [[p0 x0]|] eqn:H; [discriminate|]. intros _. apply absent_data; [exact I|].
    intros A. unfold path_loc in A. inversion A; subst. match goal with Q : subscript _ _ _ |- _ => inversion Q; subst end.
    match goal with Q : json_last _ l = Some _ |- _ => rename Q into J end.
    destruct G as [q R|q q' R R'|q ps R]; cbn [json_get first_of hd_error] in *; injection F as ->.
    + rewrite J in H. discriminate.
    + rewrite J in H. discriminate.
    + cbn [first_path] in H. rewrite J in H. match goal with Q : subscripts _ _ _ |- _ => pose proof (subs_fold IJson json_get_item sub_json_item _ R _ _ Q) end. destruct (try_fold _ _ _); [discriminate|contradiction].
  - discriminate.
  - intros es [= <-]. rewrite Forall_map. apply Forall_forall. intros [k x] H. cbn. repeat split; [econstructor; eauto|eapply step_json_entry; eauto].
  - eauto.
Qed.
End Locate.
