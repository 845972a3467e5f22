(** C45, C46: include / exclude filters. *)
From Coq Require Import List NArith ZArith Bool.
From Verif Require Import Base Filter FilterSpec FilterProofs.
Import ListNotations.

(** Following nested containers down any path, the item at the path is serialized
    iff [include] names it (or something above or below it) and [exclude] does not
    name it (or something above it); the nested filters handed to each child are
    therefore the right ones, "__all__" entries included. *)
Theorem C45_paths : forall include exclude p,
  wf_top include -> no_conflict include -> wf_top exclude -> no_conflict exclude ->
  kept include exclude p = Ok (included include p && negb (excluded exclude p)).
Proof. intros. apply kept_paths; assumption. Qed.
Print Assumptions C45_paths.

Definition s_ (x : String.string) : key := KStr (lit x).
Arguments s_ x%string_scope.
Definition ex_inc := Some (FDict [(s_ "user", FSet [s_ "name"; s_ "tags"]); (s_ "items", FDict [(ALL, FSet [s_ "id"]); (KInt 0, FSet [s_ "x"])])]).
Definition ex_exc := Some (FDict [(s_ "user", FSet [s_ "tags"]); (ALL, FSet [s_ "secret"])]).
Example C45_paths_ex :
  kept ex_inc ex_exc [s_ "user"; s_ "name"] = Ok true /\
  kept ex_inc ex_exc [s_ "user"; s_ "tags"] = Ok false /\
  kept ex_inc ex_exc [s_ "items"; KInt 0; s_ "x"] = Ok true /\
  kept ex_inc ex_exc [s_ "items"; KInt 0; s_ "id"] = Ok true /\
  kept ex_inc ex_exc [s_ "items"; KInt 1; s_ "x"] = Ok false /\
  kept ex_inc ex_exc [s_ "other"] = Ok false.
Proof. vm_compute. repeat split. Qed.

(** The hypotheses hold of these filters. *)
Example C45_paths_hyps : wf_top ex_inc /\ no_conflict ex_inc /\ wf_top ex_exc /\ no_conflict ex_exc.
Proof.
  repeat split; try discriminate; try (repeat constructor; simpl; intuition discriminate).
  all: intros [|a [|b [|c r]]]; simpl; try discriminate;
      repeat match goal with |- context [if ?x then _ else _] => destruct x end; simpl; auto;
      repeat match goal with |- context [key_eqb ?x ?y] => destruct (key_eqb x y) end; simpl; auto; try discriminate.
Qed.

(** What a schema level filter adds to the decision for one item: the call's
    exclude wins; then the call's include; then, when the call has no include (or
    the schema includes the item explicitly), the schema's own filter — or a nested
    exclude aimed at the item, see below. *)
Theorem C45_decision : forall sf k include exclude,
  wf_top include -> no_conflict include -> wf_top exclude -> no_conflict exclude ->
  exists o, filter sf k include exclude = Ok o /\
    is_some o =
      negb (excluded exclude [k]) &&
      (match include with Some f => included (Some f) [k] | None => false end ||
       (match include with Some _ => explicit_include sf k | None => true end &&
        (default_filter sf k || match exclude with Some g => touches g [k] | None => false end))).
Proof. exact filter_decision. Qed.
Print Assumptions C45_decision.

(** Without filters at the call, the schema's include and exclude decide. *)
Theorem C45_schema_filter : forall inc exc k,
  filter {| sf_include := inc; sf_exclude := exc |} k None None =
  Ok (if match inc with Some l => mem k l | None => true end &&
         negb (match exc with Some l => mem k l | None => false end)
      then Some (None, None) else None).
Proof.
  intros [i|] [e|] k; unfold filter, filter_tail, default_filter; cbn; try reflexivity.
  - destruct (mem k i); reflexivity.
Qed.
Print Assumptions C45_schema_filter.

(** The claim "an item the schema excludes is only serialized when the call
    includes it" is false: asking to exclude *part* of such an item brings the rest
    of it back. *)
Theorem C45_schema_exclude_refuted : exists sf k exclude,
  filter sf k None None = Ok None /\
  filter sf k None (Some exclude) = Ok (Some (None, Some (FSet [s_ "a"]))).
Proof.
  exists {| sf_include := None; sf_exclude := Some [s_ "secret"] |}, (s_ "secret"), (FDict [(s_ "secret", FSet [s_ "a"])]).
  vm_compute. split; reflexivity.
Qed.
Print Assumptions C45_schema_exclude_refuted.

(** Without [no_conflict] the path reading is false: [{'__all__': ..., 0: {'a'}}]
    excludes everything, yet item 0 survives. *)
Theorem C45_conflict_refuted : exists exclude p,
  wf_top exclude /\ excluded exclude p = true /\ kept None exclude p = Ok true.
Proof.
  exists (Some (FDict [(ALL, FEll); (KInt 0, FSet [s_ "a"])])), [KInt 0]. split; [|vm_compute; auto].
  split; [|discriminate]. simpl. repeat split; auto; repeat constructor; simpl; intuition discriminate.
Qed.
Print Assumptions C45_conflict_refuted.

(** Index [k] of a filter names item [k] when non-negative and item [n + k] when
    negative ([names_item]); sets of indices in range [-n, n) drop or keep exactly
    the named items, dicts hand their entry to exactly the named item. *)
Theorem C46_exclude_set : forall n l i, (0 < n)%Z -> Forall (in_range n) l -> (0 <= i < n)%Z ->
  (index_filter any_filter i None (Some (FSet l)) (Some n) = Ok None <->
   (exists k, In (KInt k) l /\ names_item n k i) \/ In ALL l).
Proof. intros. apply index_exclude_set; auto. Qed.
Print Assumptions C46_exclude_set.

Theorem C46_include_set : forall n l i, (0 < n)%Z -> Forall (in_range n) l -> (0 <= i < n)%Z ->
  (index_filter any_filter i (Some (FSet l)) None (Some n) = Ok (Some (None, None)) <->
   (exists k, In (KInt k) l /\ names_item n k i) \/ In ALL l) /\
  (index_filter any_filter i (Some (FSet l)) None (Some n) = Ok None <->
   ~ ((exists k, In (KInt k) l /\ names_item n k i) \/ In ALL l)).
Proof. intros. apply index_include_set; auto. Qed.
Print Assumptions C46_include_set.

Theorem C46_exclude_dict : forall n d i, (0 < n)%Z ->
  Forall (in_range n) (map fst d) -> NoDup (map fst d) -> ~ In ALL (map fst d) ->
  (* no item named twice *)
  (forall i a b, (0 <= i < n)%Z -> In (KInt a) (map fst d) -> In (KInt b) (map fst d) ->
     names_item n a i -> names_item n b i -> a = b) -> (0 <= i < n)%Z ->
  (forall k v, In (KInt k, v) d -> names_item n k i ->
     index_filter any_filter i None (Some (FDict d)) (Some n) = Ok (if is_ell v then None else Some (None, Some v))) /\
  ((forall k, In (KInt k) (map fst d) -> ~ names_item n k i) ->
     index_filter any_filter i None (Some (FDict d)) (Some n) = Ok (Some (None, None))).
Proof. exact index_exclude_dict. Qed.
Print Assumptions C46_exclude_dict.

Example C46_ex : map (fun i => index_filter any_filter i None (Some (FSet [KInt (-1); KInt 0])) (Some 4%Z)) [0;1;2;3]%Z
  = [Ok None; Ok (Some (None, None)); Ok (Some (None, None)); Ok None].
Proof. vm_compute. reflexivity. Qed.
Example C46_ex_dict : map (fun i => index_filter any_filter i None (Some (FDict [(KInt (-1), FEll); (KInt 1, FSet [s_ "a"])])) (Some 3%Z)) [0;1;2]%Z
  = [Ok (Some (None, None)); Ok (Some (None, Some (FSet [s_ "a"]))); Ok None].
Proof. vm_compute. reflexivity. Qed.

(** On an input of unknown length a negative index is an error. *)
Theorem C46_unsized : forall sf i k l inc, (k < 0)%Z -> In (KInt k) l ->
  (forall f, inc = Some f -> map_negative_indices f None = Ok f) ->
  index_filter sf i inc (Some (FSet l)) None = ValueErr.
Proof.
  intros sf i k l inc Hk Hin Hinc. unfold index_filter.
  assert (E : map_elems None l = ValueErr).
  { clear Hinc. induction l as [|x l IH]; [destruct Hin|]. simpl. destruct Hin as [->|Hin].
    - simpl. apply Z.ltb_lt in Hk. rewrite Hk. reflexivity.
    - rewrite (IH Hin). destruct x as [z|s]; [destruct (Z.ltb z 0)|]; reflexivity. }
  destruct inc as [f|]; cbn [map_opt].
  - rewrite (Hinc f eq_refl). cbn [map_negative_indices]. rewrite E. reflexivity.
  - cbn [map_negative_indices]. rewrite E. reflexivity.
Qed.
Print Assumptions C46_unsized.
(** So it is in include, whatever exclude is. *)
Theorem C46_unsized_include : forall sf i k l exc, (k < 0)%Z -> In (KInt k) l -> index_filter sf i (Some (FSet l)) exc None = ValueErr.
Proof.
  intros sf i k l exc Hk Hin. unfold index_filter.
  assert (E : map_elems None l = ValueErr).
  { induction l as [|x l IH]; [destruct Hin|]. simpl. destruct Hin as [->|Hin].
    - simpl. apply Z.ltb_lt in Hk. rewrite Hk. reflexivity.
    - rewrite (IH Hin). destruct x as [z|s]; [destruct (Z.ltb z 0)|]; reflexivity. }
  cbn [map_opt map_negative_indices]. rewrite E. reflexivity.
Qed.
Print Assumptions C46_unsized_include.

(** Indices outside [-n, n) do not name nothing: they wrap around. *)
Theorem C46_out_of_range_refuted : exists n k i, (n <= k)%Z /\ (0 <= i < n)%Z /\
  index_filter any_filter i None (Some (FSet [KInt k])) (Some n) = Ok None.
Proof. exists 5%Z, 7%Z, 2%Z. vm_compute. repeat split; congruence. Qed.
Print Assumptions C46_out_of_range_refuted.
