(** A member of a union that lacks a required field (C50). *)
From Coq Require Import List NArith ZArith Bool Lia.
From Verif Require Import Base Float64 Utf8 Decimal Values BytesCodec Filter FilterSpec FilterProps LookupKey Classes.
From Verif Require Import SerBase Ser SerInd SerFieldsSpec SerFieldsProofs SerProps SerFieldsProps.
Import ListNotations.
Open Scope nat_scope.

Definition required_names (fs : list (str * field ser)) : list str := map fst (List.filter (fun kf => f_required (snd kf)) fs).
Definition is_required (fs : list (str * field ser)) (k : str) : bool := match assoc k fs with Some f => f_required f | None => false end.

Section Count.
Variables (E : env) (L : level) (mode : fields_mode) (fs : list (str * field ser)) (ex : option sz) (x : extra).
Let bfs := map (fun kf => (fst kf, map_field (build E L) (snd kf))) fs.
Lemma used_required k : used (assoc k bfs) = if is_required fs k then 1 else 0.
Proof. unfold bfs. rewrite (assoc_map E L fs). unfold is_required. destruct (assoc k fs) as [f|]; reflexivity. Qed.
Lemma required_count : required_fields bfs = length (required_names fs).
Proof.
  unfold bfs, required_fields, required_names. rewrite map_length. induction fs as [|[k f] l IH]; [reflexivity|]. cbn [map List.filter snd map_field f_required].
  destruct (f_required f); cbn [length]; now rewrite IH.
Qed.
Lemma count_loop d : forall d0 n r, snd (main_py_loop L mode bfs ex None None x (pitems d) d0 n) = Good r ->
  snd r = n + length (List.filter (is_required fs) (map fst d)).
Proof.
  induction d as [|[k v] d IH]; intros d0 n r H; cbn [pitems map main_py_loop] in H; [injection H as <-; cbn; lia|].
  fold (pitems d) in H. cbn [fst snd] in H. bg H w. bg H ks. apply key_str_good in E0. subst ks. cbv zeta in H. rewrite used_required in H.
  assert (Q : n + length (List.filter (is_required fs) (map fst ((k, v) :: d))) = n + (if is_required fs k then 1 else 0) + length (List.filter (is_required fs) (map fst d))).
  { cbn [map fst List.filter]. destruct (is_required fs k); cbn [length]; lia. }
  rewrite Q. destruct (x_exclude_none x && is_py_none v); [exact (IH _ _ _ H)|].
  assert (Fl : filter any_filter (key_of (PStr k)) None None = Ok (Some (None, None))) by reflexivity. rewrite Fl in H. bg H o.
  assert (R0 : assoc k bfs = None -> is_required fs k = false).
  { unfold bfs. rewrite (assoc_map E L fs). unfold is_required. now destruct (assoc k fs). }
  destruct (assoc k bfs) as [f|].
  - destruct (f_ser f) as [s|]; [|exact (IH _ _ _ H)]. destruct (is_default _ _ _); [exact (IH _ _ _ H)|]. bg H w'. bg H d1. exact (IH _ _ _ H).
  - rewrite R0 by reflexivity. rewrite Nat.add_0_r. destruct (is_td_allow mode).
    + bg H w'. bg H d1. exact (IH _ _ _ H).
    + destruct (is_strict _); [discriminate|]. exact (IH _ _ _ H).
Qed.
End Count.

(** The attempt that a union makes with a typed dict or the fields of a model fails when a
    required field is missing. *)
Theorem C50_required E mode fs ex cs c json o d chk p : mode <> ModelExtra -> chk <> CNone -> o_as_any o = false ->
  o_exclude_unset o = false -> o_exclude_defaults o = false -> o_exclude_none o = false -> o_include o = None -> o_exclude o = None ->
  NoDup (map fst d) ->
  attempt_with E c json o (as_dict d) chk (SerFields mode fs ex cs) = Good p ->
  forall n f, In (n, f) fs -> f_required f = true -> In n (map fst d).
Proof.
  intros Md Ck Any U D N Inc Exc Nd H n f I R. unfold attempt_with in H. rewrite Inc, Exc in H. cbn [build fields_ser z_py] in H.
  assert (T : td_inferred (set_check chk (start c json o)) = false) by (unfold td_inferred; cbn; now rewrite Any). rewrite T in H.
  assert (Ed : extract_dicts mode (as_dict d) = Some (map (fun kv => (PStr (fst kv), snd kv)) d, None)) by (destruct mode; try reflexivity; contradiction). rewrite Ed in H.
  bg H m. clear H. unfold main_to_python in E0. bg E0 r. rewrite items_as_dict in E1. rewrite required_count in E0. apply count_loop in E1. cbn [x_check set_model set_check start x_exclude_defaults x_exclude_unset x_exclude_none is_some] in E0.
  rewrite U, D, N in E0. cbn [orb negb andb is_some] in E0. rewrite andb_true_r in E0.
  assert (check_enabled chk = true) as Ce by (destruct chk; [contradiction|reflexivity|reflexivity]). rewrite Ce in E0. cbn [andb] in E0.
  destruct (Nat.ltb (snd r) _) eqn:Lt; [discriminate|]. apply Nat.ltb_ge in Lt. rewrite E1 in Lt. cbn in Lt.
  assert (In n (List.filter (is_required fs) (map fst d))) as K; [|now apply filter_In in K].
  apply (NoDup_length_incl (l := List.filter (is_required fs) (map fst d)) (l' := required_names fs)); [now apply NoDup_filter|exact Lt| |].
  - intros k Ik. apply filter_In in Ik. destruct Ik as [_ Ik]. unfold is_required in Ik. destruct (assoc k fs) as [g|] eqn:As; [|discriminate].
    apply in_map_iff. exists (k, g). split; [reflexivity|]. apply filter_In. split; [|exact Ik]. clear - As. induction fs as [|[a b] l IH]; [discriminate|]. cbn in As.
    destruct (str_eqb k a) eqn:Q; [apply str_eqb_eq in Q; subst; injection As as ->; now left|right; now apply IH].
  - apply in_map_iff. exists (n, f). split; [reflexivity|]. apply filter_In. now split.
Qed.
Print Assumptions C50_required.

(** The first member lacks its field: the second is used. *)
Definition td (n : str) : ser := SerFields TypedDictAllow [(n, {| f_alias := Some (lit "A"); f_ser := Some SerInt; f_required := true; f_by_alias := Some true |})] None [].
Example C50_required_ex :
  rejected (attempt_with E0 conf false opts (as_dict [(lit "b", PInt 1)]) CStrict (td (lit "a"))) /\
  attempt_with E0 conf false opts (as_dict [(lit "b", PInt 1)]) CStrict (td (lit "b")) = Good (PDict [(PStr (lit "A"), PInt 1)]) /\
  to_python E0 (SerUnion [td (lit "a"); td (lit "b")]) conf false opts (as_dict [(lit "b", PInt 1)]) = Returned (PDict [(PStr (lit "A"), PInt 1)]) [].
Proof. split; [exact I|]. split; vm_compute; reflexivity. Qed.
(** Excluding anything by the exclude argument or by an exclude flag switches the check off. *)
Theorem C50_required_refuted :
  let o := with_options None false false true None opts in
  attempt_with E0 conf false o (as_dict [(lit "b", PInt 1)]) CStrict (td (lit "a")) = Good (PDict [(PStr (lit "b"), PInt 1)]) /\
  to_python E0 (SerUnion [td (lit "a"); td (lit "b")]) conf false o (as_dict [(lit "b", PInt 1)]) = Returned (PDict [(PStr (lit "b"), PInt 1)]) [].
Proof. split; vm_compute; reflexivity. Qed.
Print Assumptions C50_required_refuted.
(** [include] does not switch it off: the fields it leaves out count as missing, so that a
    union has no member for a value that one of its members serializes without complaint. *)
Definition two_fields : ser := SerFields SimpleDict [(lit "a", fld (Some (lit "A")) SerInt); (lit "b", fld None SerInt)] None [].
Definition only_a : options :=
  {| o_by_alias := None; o_exclude_unset := false; o_exclude_defaults := false; o_exclude_none := false; o_round_trip := false;
     o_warnings := WWarn; o_fallback := None; o_as_any := false; o_include := Some (FSet [KStr (lit "a")]); o_exclude := None |}.
Theorem C50_include_refuted :
  let v := as_dict [(lit "a", PInt 1); (lit "b", PInt 2)] in
  to_python E0 two_fields conf false only_a v = Returned (PDict [(PStr (lit "A"), PInt 1)]) [] /\
  to_python E0 (SerUnion [two_fields; td (lit "c")]) conf false only_a v = Returned (PDict [(PStr (lit "a"), PInt 1)]) [WUnion; WUnion] /\
  to_python E0 (SerUnion [two_fields; td (lit "c")]) conf false opts v = Returned (PDict [(PStr (lit "A"), PInt 1); (PStr (lit "b"), PInt 2)]) [].
Proof. split; [|split]; vm_compute; reflexivity. Qed.
Print Assumptions C50_include_refuted.
