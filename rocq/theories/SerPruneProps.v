(** C95: include and exclude prune the data, and nothing else. *)
From Coq Require Import List NArith ZArith Bool Lia.
From Verif Require Import Base Float64 Utf8 Values BytesCodec Filter FilterSpec FilterProofs JsonText SerBase Ser SerPruneSpec SerPruneProofs.
Import ListNotations.
Open Scope nat_scope.

Lemma start_unfiltered c j o : start c j (unfiltered o) = start c j o.
Proof. reflexivity. Qed.
Lemma start_guard c j o : set_guard [] (start c j o) = start c j o.
Proof. reflexivity. Qed.

(** Serializing plain data with [include] and [exclude], at any depth, gives what
    serializing the pruned data without them gives: to JSON, *)
Theorem C95_prunes_json E c o v : plain v = true -> apt (o_include o) v -> apt (o_exclude o) v ->
  to_json E SerAny c o v = to_json E SerAny c (unfiltered o) (prune (selected o) v).
Proof.
  intros P Ai Ae. unfold to_json. cbn [unfiltered o_warnings o_include o_exclude build any_ser simple z_js]. rewrite start_unfiltered.
  rewrite <- start_guard. f_equal. apply prune_js; [exact P|exact Ai|exact Ae|constructor|constructor].
Qed.
(** to Python objects, in JSON mode, *)
Theorem C95_prunes_json_mode E c o v : plain v = true -> apt (o_include o) v -> apt (o_exclude o) v ->
  to_python E SerAny c true o v = to_python E SerAny c true (unfiltered o) (prune (selected o) v).
Proof.
  intros P Ai Ae. unfold to_python. cbn [unfiltered o_warnings o_include o_exclude build any_ser simple z_py]. rewrite start_unfiltered.
  rewrite <- start_guard. f_equal. apply prune_py; [exact P|exact Ai|exact Ae|constructor|constructor|]. left. reflexivity.
Qed.
(** and in Python mode, if the data is not nested more than 255 levels deep. *)
Theorem C95_prunes_python E c o v : plain v = true -> height v <= 255 -> apt (o_include o) v -> apt (o_exclude o) v ->
  to_python E SerAny c false o v = to_python E SerAny c false (unfiltered o) (prune (selected o) v).
Proof.
  intros P D Ai Ae. unfold to_python. cbn [unfiltered o_warnings o_include o_exclude build any_ser simple z_py]. rewrite start_unfiltered.
  rewrite <- start_guard. f_equal. apply prune_py; [exact P|exact Ai|exact Ae|constructor|constructor|]. right. exact D.
Qed.
(** So what is not selected does not show: data that differ only there serialize the same
    way, to the same text with the same warnings or both to an error. *)
Theorem C95_hidden E c o indent v w : plain v = true -> plain w = true ->
  apt (o_include o) v -> apt (o_exclude o) v -> apt (o_include o) w -> apt (o_exclude o) w ->
  prune (selected o) v = prune (selected o) w ->
  to_json E SerAny c o v = to_json E SerAny c o w /\ to_json_bytes E SerAny c o indent v = to_json_bytes E SerAny c o indent w /\
  to_python E SerAny c true o v = to_python E SerAny c true o w /\
  (height v <= 255 -> height w <= 255 -> to_python E SerAny c false o v = to_python E SerAny c false o w).
Proof.
  intros P1 P2 A1 A2 A3 A4 H.
  assert (J : to_json E SerAny c o v = to_json E SerAny c o w) by (rewrite (C95_prunes_json E c o v), (C95_prunes_json E c o w), H by assumption; reflexivity).
  split; [exact J|]. split; [unfold to_json_bytes; rewrite J; reflexivity|]. split.
  - rewrite (C95_prunes_json_mode E c o v), (C95_prunes_json_mode E c o w), H by assumption. reflexivity.
  - intros D1 D2. rewrite (C95_prunes_python E c o v), (C95_prunes_python E c o w), H by assumption. reflexivity.
Qed.

(** Users with passwords: the first one, without the password. *)
Definition pr_env : env :=
  {| e_class := fun _ => {| ci_ser := None; ci_dataclass := None; ci_enum := false |}; e_sub := N.eqb; e_def := fun _ => None;
     e_str := fun _ => None; e_hash := fun _ => true; e_prop := fun _ _ => None; e_ryu := fun _ => []; e_stack := 5 |}.
Definition pr_conf : config := {| c_inf_nan := INull; c_bytes := MUtf8 |}.
Definition pr_opts (inc exc : option fval) : options :=
  {| o_by_alias := None; o_exclude_unset := false; o_exclude_defaults := false; o_exclude_none := false; o_round_trip := false; o_warnings := WWarn;
     o_fallback := None; o_as_any := false; o_include := inc; o_exclude := exc |}.
Definition pr_user (n p : str) : pyval := PDict [(PStr (lit "n"), PStr n); (PStr (lit "p"), PStr p)].
Definition pr_data (p q : str) : pyval :=
  PDict [(PStr (lit "u"), PList [pr_user (lit "a") p; pr_user (lit "b") q]); (PStr (lit "t"), PTuple [PInt 1; PSet [PInt 2]])].
Definition pr_inc : option fval := Some (FDict [(KStr (lit "u"), FSet [KInt 0]); (KStr (lit "t"), FEll)]).
Definition pr_exc : option fval := Some (FDict [(KStr (lit "u"), FDict [(ALL, FSet [KStr (lit "p")])]); (KStr (lit "t"), FSet [KInt 1])]).
Definition pr_o : options := pr_opts pr_inc pr_exc.
Lemma pr_all g k r : covers (FDict [(ALL, g)]) (k :: r) = covers g r /\ touches (FDict [(ALL, g)]) (k :: r) = touches g r.
Proof. cbn [covers touches lookup]. rewrite key_eqb_refl. destruct (key_eqb k ALL); cbn; rewrite ?orb_diag; split; reflexivity. Qed.
Lemma pr_apt p q : apt pr_inc (pr_data p q) /\ apt pr_exc (pr_data p q).
Proof.
  split; (split; [|split]).
  - split; [|discriminate]. cbn. split; [repeat constructor; cbn; intuition discriminate|]. split; [repeat constructor; cbn; intuition discriminate|]. split; exact I.
  - intros [|a r]; [discriminate|].
    destruct (key_eqb a (KStr (lit "u"))) eqn:E1; [apply key_eqb_eq in E1; subst a; destruct r; vm_compute; intros; reflexivity || discriminate|].
    destruct (key_eqb a (KStr (lit "t"))) eqn:E2; [apply key_eqb_eq in E2; subst a; destruct r; vm_compute; intros; reflexivity || discriminate|].
    cbn [covers lookup]. rewrite E1, E2. discriminate.
  - cbn [pr_inc fits_top fits]. split; [split; [exact I|]|split; [split; [exact I|]|exact I]].
    + intros k' w N A. constructor; [|constructor]. inversion A; subst. cbn [In] in *.
      match goal with H : _ \/ _ |- _ => destruct H as [X|[X|[]]] end; inversion X; subst; cbn; lia.
    + intros k' w N A. exact I.
  - split; [|discriminate]. cbn. split; [repeat constructor; cbn; intuition discriminate|]. split; [|split; [repeat constructor; cbn; intuition discriminate|exact I]].
    split; [repeat constructor; cbn; intuition discriminate|]. split; [repeat constructor; cbn; intuition discriminate|exact I].
  - intros [|a r]; [discriminate|].
    destruct (key_eqb a (KStr (lit "u"))) eqn:E1.
    { apply key_eqb_eq in E1. subst a.
      change (covers (FDict [(ALL, FSet [KStr (lit "p")])]) r || false = true -> touches (FDict [(ALL, FSet [KStr (lit "p")])]) r || false = false).
      rewrite !orb_false_r. destruct r as [|b r]; [discriminate|]. destruct (pr_all (FSet [KStr (lit "p")]) b r) as [-> ->].
      destruct r; [discriminate|]. intros _. reflexivity. }
    destruct (key_eqb a (KStr (lit "t"))) eqn:E2; [apply key_eqb_eq in E2; subst a; destruct r; cbn; intros H; reflexivity || discriminate|].
    cbn [covers lookup]. rewrite E1, E2. discriminate.
  - cbn [pr_exc fits_top fits]. split; [split; [exact I|]|split; [split; [exact I|]|exact I]].
    + intros k' w N A. split; [|exact I]. split; [destruct w; exact I|]. intros k'' u N' A'. constructor; [|constructor]. destruct u; exact I.
    + intros k' w N A. constructor; [|constructor]. inversion A; subst. cbn [In] in *.
      match goal with H : _ \/ _ |- _ => destruct H as [X|[X|[]]] end; inversion X; subst; cbn; try lia.
Qed.
Example C95_prunes_hyps p q : plain (pr_data p q) = true /\ height (pr_data p q) <= 255 /\ apt (o_include pr_o) (pr_data p q) /\ apt (o_exclude pr_o) (pr_data p q).
Proof. split; [reflexivity|]. split; [cbn; lia|]. exact (pr_apt p q). Qed.
Example C95_prunes_case :
  prune (selected pr_o) (pr_data (lit "x") (lit "y")) = PDict [(PStr (lit "u"), PList [PDict [(PStr (lit "n"), PStr (lit "a"))]]); (PStr (lit "t"), PTuple [PInt 1])] /\
  to_json pr_env SerAny pr_conf pr_o (pr_data (lit "x") (lit "y")) =
    Returned (JObj [(lit "u", JArr [JObj [(lit "n", JStr (lit "a"))]]); (lit "t", JArr [JInt 1])]) [].
Proof. split; vm_compute; reflexivity. Qed.
Example C95_hidden_case p q p' q' : to_json pr_env SerAny pr_conf pr_o (pr_data p q) = to_json pr_env SerAny pr_conf pr_o (pr_data p' q').
Proof.
  destruct (pr_apt p q), (pr_apt p' q').
  refine (proj1 (C95_hidden pr_env pr_conf pr_o None (pr_data p q) (pr_data p' q') _ _ _ _ _ _ _)); try assumption; reflexivity.
Qed.

(** Findings: what the hypotheses leave out.  In Python mode, from the 256th level of
    nesting on, the filters are no longer applied: what is excluded there is returned. *)
Fixpoint pr_deep (n : nat) (v : pyval) : pyval := match n with O => v | S n => PList [pr_deep n v] end.
Fixpoint pr_deep_f (n : nat) (f : fval) : fval := match n with O => f | S n => FDict [(ALL, pr_deep_f n f)] end.
Lemma pr_in i e : o_include (pr_opts i e) = i. Proof. reflexivity. Qed.
Lemma pr_ex i e : o_exclude (pr_opts i e) = e. Proof. reflexivity. Qed.
Lemma pr_deep_wt n v : wt (pr_deep n v) < wt (pr_deep (S n) v).
Proof. cbn. lia. Qed.
(** At the bottom the value comes back as it is, whatever the filters. *)
Lemma pr_deep_run E n : forall v x g f, x_json x = false -> heavier (pr_deep n v) g ->
  match f with Some h => is_ell h = false | None => True end ->
  l_py (levels E n) (pr_deep n v) None (option_map (pr_deep_f n) f) (set_guard g x) = ret (pr_deep n v).
Proof.
  induction n as [|n IH]; intros v x g f J H F.
  - cbn [levels]. unfold no_level. rewrite keyed_py. cbn [l_py]. unfold guard_failed_py. cbn [set_guard x_json]. rewrite J. reflexivity.
  - cbn [levels]. unfold next_level. rewrite keyed_py. cbn [l_py]. rewrite enter_ok by exact H.
    unfold infer_py_body. cbn [pr_deep get_type down_list base opt]. rewrite bind_ret. cbn [filtered].
    assert (X : index_filter any_filter (Z.of_nat 0) None (option_map (pr_deep_f (S n)) f) (zlen [pr_deep n v]) = Ok (Some (None, option_map (pr_deep_f n) f))).
    { destruct f as [h|]; [|reflexivity]. cbn [option_map pr_deep_f].
      change (filter any_filter (KInt 0) None (Some (FDict [(ALL, pr_deep_f n h)])) = Ok (Some (None, Some (pr_deep_f n h)))).
      unfold filter, exclude_phase, merge_all_value. cbn [lookup]. rewrite key_eqb_refl. change (key_eqb (KInt 0) ALL) with false.
      assert (Y : is_ell (pr_deep_f n h) = false) by (destruct n; [exact F|reflexivity]). cbn [lookup]. rewrite Y. reflexivity. }
    rewrite X. cbn [res_opt]. rewrite bind_ret.
    rewrite (IH v x ((PList [pr_deep n v], None) :: g) f J (heavier_in (pr_deep (S n) v) (pr_deep n v) g (pr_deep_wt n v) H) F).
    rewrite !bind_ret. reflexivity.
Qed.
Lemma pr_deep_prune n f v : forall keep, (forall p, keep p = kept_by None (Some (pr_deep_f n f)) p) ->
  prune keep (pr_deep n v) = pr_deep n (prune (kept_by None (Some f)) v) \/ is_ell f = true.
Proof.
  induction n as [|n IH]; intros keep K; cbn [pr_deep]; [left; apply prune_ext; exact K|]. destruct (is_ell f) eqn:F; [right; reflexivity|]. left.
  assert (A : forall k r, kept_by None (Some (pr_deep_f (S n) f)) (k :: r) = kept_by None (Some (pr_deep_f n f)) r).
  { intros k r. unfold kept_by. cbn [included excluded pr_deep_f]. destruct (pr_all (pr_deep_f n f) k r) as [-> _]. reflexivity. }
  rewrite prune_list. cbn [prune_seq]. rewrite K, A.
  assert (B : kept_by None (Some (pr_deep_f n f)) [] = true) by (destruct n; [destruct f; reflexivity || discriminate|reflexivity]). rewrite B.
  destruct (IH (under keep (KInt (Z.of_nat 0)))) as [-> | X]; [|reflexivity|discriminate]. intros p. unfold under. rewrite K. apply A.
Qed.
Theorem C95_deep_refuted : exists E c o v, plain v = true /\ apt (o_include o) v /\ wf_top (o_exclude o) /\
  to_python E SerAny c false o v <> to_python E SerAny c false (unfiltered o) (prune (selected o) v).
Proof.
  exists pr_env, pr_conf, (pr_opts None (Some (pr_deep_f ser_limit (FSet [KStr (lit "p")])))), (pr_deep ser_limit (pr_user (lit "a") (lit "x"))).
  split; [vm_compute; reflexivity|]. split; [split; [exact I|split; exact I]|]. split.
  { split; [|discriminate]. generalize ser_limit. induction n as [|n IH]; [repeat constructor; cbn; intuition discriminate|].
    split; [repeat constructor; cbn; intuition discriminate|]. split; [exact IH|exact I]. }
  unfold to_python. cbn [unfiltered o_warnings o_include o_exclude build any_ser simple z_py]. rewrite start_unfiltered.
  destruct (pr_deep_prune ser_limit (FSet [KStr (lit "p")]) (pr_user (lit "a") (lit "x"))
              (selected (pr_opts None (Some (pr_deep_f ser_limit (FSet [KStr (lit "p")])))))) as [X|X]; [reflexivity| |discriminate X].
  rewrite X. rewrite <- start_guard.
  pose proof (pr_deep_run pr_env ser_limit (pr_user (lit "a") (lit "x")) (start pr_conf false (pr_opts None (Some (pr_deep_f ser_limit (FSet [KStr (lit "p")]))))) [] (Some (FSet [KStr (lit "p")]))
                eq_refl (Forall_nil _) eq_refl) as R1.
  pose proof (pr_deep_run pr_env ser_limit (prune (kept_by None (Some (FSet [KStr (lit "p")]))) (pr_user (lit "a") (lit "x")))
                (start pr_conf false (pr_opts None (Some (pr_deep_f ser_limit (FSet [KStr (lit "p")]))))) [] None eq_refl (Forall_nil _) I) as R2.
  cbn [option_map] in R1, R2. rewrite (pr_in None), (pr_ex None), R1, R2.
  unfold final_check, ret. cbn [snd fst]. intros H. injection H as H. discriminate H.
Qed.
(** The filters given for a set are applied to each of its elements in JSON, though its
    elements have neither keys nor indices. *)
Theorem C95_sets_refuted : exists E c o v, apt (o_include o) v /\ apt (o_exclude o) v /\
  to_json E SerAny c o v <> to_json E SerAny c (unfiltered o) (prune (selected o) v) /\
  to_python E SerAny c true o v = to_python E SerAny c true (unfiltered o) (prune (selected o) v).
Proof.
  exists pr_env, pr_conf, (pr_opts None (Some (FSet [KInt 0]))), (PSet [PTuple [PInt 1; PInt 2]]).
  split; [split; [exact I|split; exact I]|]. split.
  { split; [split; [repeat constructor; cbn; intuition discriminate|discriminate]|]. split; [|repeat constructor].
    intros [|a r]; cbn; [discriminate|]. intros _. reflexivity. }
  split; vm_compute; [discriminate|reflexivity].
Qed.
(** An index beyond the end of a list is counted from the start again. *)
Theorem C95_out_of_range_refuted : exists E c o v, plain v = true /\ wf_top (o_exclude o) /\ no_conflict (o_exclude o) /\
  to_json E SerAny c o v <> to_json E SerAny c (unfiltered o) (prune (selected o) v).
Proof.
  exists pr_env, pr_conf, (pr_opts None (Some (FSet [KInt 5]))), (PList [PInt 1; PInt 2]).
  split; [reflexivity|]. split; [split; [repeat constructor; cbn; intuition discriminate|discriminate]|]. split.
  { intros [|a r]; cbn; [discriminate|]. intros _. reflexivity. }
  vm_compute. discriminate.
Qed.

Print Assumptions C95_prunes_json.
Print Assumptions C95_prunes_json_mode.
Print Assumptions C95_prunes_python.
Print Assumptions C95_hidden.
Print Assumptions C95_deep_refuted.
Print Assumptions C95_sets_refuted.
Print Assumptions C95_out_of_range_refuted.
