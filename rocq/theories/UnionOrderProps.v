(** C100: the order of the members of a union in smart mode. *)
From Coq Require Import List NArith ZArith Bool Lia Permutation.
From Verif Require Import Base Float64 IntParse Numbers BytesCodec Values VState LookupKey Collections Child Inputs Scalars Literal Wrappers Union TaggedUnion Tuple ModelFields TypedDict Assign Arguments Classes Interp InterpSpec InterpExamples UnionSpec UnionProofs UnionProps UnionOrderSpec.
From Verif Require LooseOff UnionExtra.
Import ListNotations.
Open Scope nat_scope.

(** ** Members do not see each other *)
Lemma fresh_again E defs fuel sc i s t : st_partial s = PartialOff -> snd (run E defs fuel sc i (fresh s)) = t ->
  fresh t = fresh s /\ st_partial t = PartialOff.
Proof.
  intros P <-. pose proof (proj1 (UnionExtra.eval_off E (refs E defs fuel 0) (UnionExtra.refs_off E defs fuel 0) sc) i (fresh s)) as X.
  pose proof (proj1 (LooseOff.eval_off E (refs E defs fuel 0) (LooseOff.refs_off E defs fuel 0) sc) i (fresh s) P) as O.
  change (cv_validate (eval E (refs E defs fuel 0) sc)) with (run E defs fuel sc) in X, O. unfold UnionExtra.off in X. unfold LooseOff.off in O.
  split; [|exact O]. destruct (snd (run E defs fuel sc i (fresh s))) as [e n p x]. cbn in X, O. unfold fresh, set_fields_set, set_exactness. cbn. now rewrite X, O, P.
Qed.
Definition members E defs fuel (ms : list (schema * str)) : list choice :=
  map (fun cl => {| ch_validator := run E defs fuel (fst cl); ch_label := snd cl |}) ms.
Lemma outcomes_alone E defs fuel ms i s : st_partial s = PartialOff -> outcomes (members E defs fuel ms) i s = map (alone E defs fuel i s) ms.
Proof.
  intros P. assert (G : forall t, st_partial t = PartialOff -> fresh t = fresh s -> outcomes (members E defs fuel ms) i t = map (alone E defs fuel i s) ms); [|now apply G].
  induction ms as [|m ms IH]; intros t T F; [reflexivity|]. cbn [members map outcomes ch_validator ch_label]. unfold alone at 1. rewrite F.
  destruct (run E defs fuel (fst m) i (fresh s)) as [r u] eqn:R. f_equal.
  destruct (fresh_again E defs fuel (fst m) i s u P ltac:(now rewrite R)) as [U V]. now apply IH.
Qed.

(** ** The member that stands out is taken *)
Definition out (m : match_) : outcome := {| o_label := []; o_result := VOk (fst (fst m)); o_exactness := Some (snd (fst m)); o_count := snd m |}.
Lemma replaces_better v e n b : replaces (Some b) e n = true <-> better (out (v, e, n)) (out b).
Proof.
  destruct b as [[w f] k]. unfold replaces, better, out, exactness_of, exactness_lt. cbn [o_count o_exactness fst snd].
  assert (X : (exactness_rank f <? exactness_rank e) = true <-> exact_lt f e) by (destruct e, f; cbn; split; intros; try discriminate; auto).
  destruct k as [k|], n as [n|]; try exact X. destruct (Nat.eqb_spec k n) as [Q|Q]; cbn [negb].
  - subst. rewrite X. split; [intros Y; right; now split|intros [Y|[_ Y]]; [lia|exact Y]].
  - rewrite Nat.ltb_lt. split; [now left|intros [Y|[Y _]]; [exact Y|congruence]].
Qed.
Lemma better_asym a b : better a b -> better b a -> False.
Proof. unfold better. destruct (o_count a), (o_count b), (exactness_of a), (exactness_of b); cbn; intuition lia. Qed.
Lemma better_out v w o : o_result o = VOk v -> better (out (v, exactness_of o, o_count o)) w <-> better o w.
Proof. intros _. unfold better, out. cbn. tauto. Qed.
Lemma better_out' v w o : better w (out (v, exactness_of o, o_count o)) <-> better w o.
Proof. unfold better, out. cbn. tauto. Qed.
Lemma smart_stands custom oe on i o v : o_result o = VOk v -> forall cs s best errs,
  (forall p, In p (outcomes cs i s) -> accepted p \/ rejected p) ->
  (forall p, In p (outcomes cs i s) -> accepted p -> p = o \/ better o p) ->
  (In o (outcomes cs i s) /\ (forall b, best = Some b -> better o (out b))) \/ best = Some (v, exactness_of o, o_count o) ->
  match smart_loop custom oe on cs i best errs s with
  | Returned r t => r = VOk v /\ exactness_of o = Exact /\ o_count o = None /\ st_exactness t = oe /\ st_fields_set t = on
  | Tried b _ _ => b = Some (v, exactness_of o, o_count o)
  end.
Proof.
  intros R. induction cs as [|c cs IH]; intros s best errs A B H; cbn [outcomes smart_loop] in *.
  { destruct H as [[[] _]| ->]. reflexivity. }
  change (set_fields_set None (set_exactness (Some Exact) s)) with (fresh s) in *.
  destruct (ch_validator c i (fresh s)) as [r s1]. set (p := {| o_label := ch_label c; o_result := r; o_exactness := st_exactness s1; o_count := st_fields_set s1 |}) in *.
  pose proof (A p (or_introl eq_refl)) as Ap. pose proof (B p (or_introl eq_refl)) as Bp.
  assert (A' : forall q, In q (outcomes cs i s1) -> accepted q \/ rejected q) by (intros q Q; apply A; now right).
  assert (B' : forall q, In q (outcomes cs i s1) -> accepted q -> q = o \/ better o q) by (intros q Q; apply B; now right).
  destruct r as [w|e].
  2:{ destruct Ap as [[x X]|[es X]]; [discriminate X|]. injection X as ->. apply IH; [exact A'|exact B'|].
      destruct H as [[[H|H] K]|H]; [|now left|now right]. exfalso. rewrite <- H in R. discriminate R. }
  destruct (Bp (ex_intro _ w eq_refl)) as [Q|Q].
  - (* the member that stands out *)
    assert (W : w = v) by (rewrite <- Q in R; now injection R). subst w.
    assert (T : (if replaces best (exactness_of p) (o_count p) then Some (v, exactness_of p, o_count p) else best) = Some (v, exactness_of o, o_count o)).
    { rewrite Q. destruct H as [[_ K]| ->]; [|now destruct replaces]. destruct best as [b|]; [|reflexivity].
      rewrite (proj2 (replaces_better v _ _ b)); [reflexivity|]. apply better_out; [exact R|]. now apply K. }
    assert (Eo : exactness_of o = exactness_of p /\ o_count o = o_count p) by (now rewrite Q).
    unfold exactness_of in T at 1 2. unfold exactness_of at 2 in Eo. cbn [p o_exactness o_count] in T, Eo.
    destruct (st_exactness s1) as [[]|], (st_fields_set s1); try (apply IH; now auto). destruct Eo. now repeat split.
  - (* a member it beats *)
    assert (T : In o (outcomes cs i s1) /\ (forall b, (if replaces best (exactness_of p) (o_count p) then Some (w, exactness_of p, o_count p) else best) = Some b -> better o (out b))
      \/ (if replaces best (exactness_of p) (o_count p) then Some (w, exactness_of p, o_count p) else best) = Some (v, exactness_of o, o_count o)).
    { destruct H as [[H K]| ->].
      - left. split; [destruct H as [H|H]; [subst o; contradiction (better_asym _ _ Q Q)|exact H]|].
        intros b. destruct (replaces best _ _); [|apply K]. intros [= <-]. now apply better_out'.
      - right. destruct (replaces _ _ _) eqn:X; [|reflexivity]. exfalso. apply (replaces_better w) in X. apply better_out' in X. apply (better_asym _ _ Q). exact X. }
    unfold exactness_of in T. cbn [p o_exactness o_count] in T.
    assert (N : ~ (st_exactness s1 = Some Exact /\ st_fields_set s1 = None)).
    { intros [X Y]. unfold better, exactness_of in Q. cbn [p o_exactness o_count] in Q. rewrite X, Y in Q. destruct (o_count o); cbn in Q; exact Q. }
    destruct (st_exactness s1) as [[]|] eqn:X, (st_fields_set s1) eqn:Y; try (exfalso; now apply N); apply IH; auto.
Qed.

(** What the union adds to the state of what surrounds it. *)
Definition credit (o : outcome) (s : state) : state :=
  let s1 := floor_exactness (exactness_of o) s in match o_count o with Some k => add_fields_set k s1 | None => s1 end.
Lemma floor_partial e s : st_partial (floor_exactness e s) = st_partial s.
Proof. unfold floor_exactness. destruct (st_exactness s) as [[]|]; auto. destruct e; auto. Qed.
Lemma floor_fields e s : st_fields_set (floor_exactness e s) = st_fields_set s.
Proof. unfold floor_exactness. destruct (st_exactness s) as [[]|]; auto. destruct e; auto. Qed.
Lemma floor_level e a b : st_exactness a = st_exactness b -> st_exactness (floor_exactness e a) = st_exactness (floor_exactness e b).
Proof. destruct a as [x ? ? ?], b as [y ? ? ?]. cbn [st_exactness]. intros ->. unfold floor_exactness. cbn [st_exactness]. destruct y as [[]|], e; reflexivity. Qed.
Lemma state_eq (a b : state) : st_exactness a = st_exactness b -> st_fields_set a = st_fields_set b -> st_partial a = st_partial b -> st_extra a = st_extra b -> a = b.
Proof. destruct a, b; cbn; congruence. Qed.
Lemma stands_full E defs fuel custom ms i s m v :
  st_partial s = PartialOff -> all_answer E defs fuel i s ms -> stands_out E defs fuel i s ms m ->
  fst (run E defs fuel (fst m) i (fresh s)) = VOk v ->
  run E defs fuel (SUnion UnionSmart custom ms) i s = (VOk v, credit (alone E defs fuel i s m) s).
Proof.
  intros P A (I & AC & S) R.
  pose proof (proj1 (UnionExtra.eval_off E (refs E defs fuel 0) (UnionExtra.refs_off E defs fuel 0) (SUnion UnionSmart custom ms)) i s) as X.
  pose proof (proj1 (LooseOff.eval_off E (refs E defs fuel 0) (LooseOff.refs_off E defs fuel 0) (SUnion UnionSmart custom ms)) i s P) as O.
  change (cv_validate (eval E (refs E defs fuel 0) (SUnion UnionSmart custom ms)) i s) with (validate_smart custom (members E defs fuel ms) i s) in X, O.
  unfold UnionExtra.off in X. unfold LooseOff.off in O.
  change (run E defs fuel (SUnion UnionSmart custom ms) i s) with (validate_smart custom (members E defs fuel ms) i s). unfold validate_smart in *.
  assert (RO : o_result (alone E defs fuel i s m) = VOk v) by (unfold alone; destruct (run E defs fuel (fst m) i (fresh s)); exact R).
  pose proof (smart_stands custom (st_exactness s) (st_fields_set s) i _ v RO (members E defs fuel ms) s None []) as L.
  rewrite (outcomes_alone E defs fuel ms i s P) in L.
  specialize (L ltac:(intros p Hp; apply in_map_iff in Hp; destruct Hp as (x & <- & XX); now apply A)).
  specialize (L ltac:(intros p Hp Ap; apply in_map_iff in Hp; destruct Hp as (x & <- & XX); destruct (S x XX Ap) as [-> |B]; [now left|now right])).
  specialize (L ltac:(left; split; [now apply in_map|discriminate])).
  unfold credit. destruct (smart_loop _ _ _ _ _ _ _ _) as [b errs s1|r s1].
  - subst b. f_equal. destruct (o_count (alone E defs fuel i s m)) as [k|]; cbn [snd] in X, O; apply state_eq.
    + unfold add_fields_set. cbn [st_exactness]. now apply floor_level.
    + unfold add_fields_set. cbn [st_fields_set]. now rewrite !floor_fields.
    + etransitivity; [exact O|]. symmetry. etransitivity; [|exact P]. apply floor_partial.
    + etransitivity; [exact X|]. symmetry. apply UnionExtra.floor_extra.
    + now apply floor_level.
    + now rewrite !floor_fields.
    + now rewrite O, floor_partial.
    + now rewrite X, UnionExtra.floor_extra.
  - destruct L as (-> & EX & EC & L1 & L2). rewrite EX, EC. f_equal. cbn [snd] in X, O. apply state_eq.
    + rewrite L1. clear. destruct s as [[[]|] ? ? ?]; reflexivity.
    + now rewrite floor_fields.
    + now rewrite O, floor_partial.
    + now rewrite X, UnionExtra.floor_extra.
Qed.

(** C100: the value of a union in smart mode is that of the member that stands out, wherever
    in the list it stands, for whatever members. *)
Theorem C100_stands_out : forall E defs fuel custom ms i s m v,
  st_partial s = PartialOff -> all_answer E defs fuel i s ms -> stands_out E defs fuel i s ms m ->
  fst (run E defs fuel (fst m) i (fresh s)) = VOk v ->
  fst (run E defs fuel (SUnion UnionSmart custom ms) i s) = VOk v.
Proof. intros E defs fuel custom ms i s m v P A S R. now rewrite (stands_full E defs fuel custom ms i s m v P A S R). Qed.
Print Assumptions C100_stands_out.

(** C100: in particular that of the only member that accepts. *)
Theorem C100_only_one : forall E defs fuel custom pre m post i s v,
  st_partial s = PartialOff -> fst (run E defs fuel (fst m) i (fresh s)) = VOk v ->
  (forall m', In m' (pre ++ post) -> exists es, fst (run E defs fuel (fst m') i (fresh s)) = VErr (LineErrors es)) ->
  fst (run E defs fuel (SUnion UnionSmart custom (pre ++ m :: post)) i s) = VOk v.
Proof.
  intros E defs fuel custom pre m post i s v P R O.
  assert (AM : accepted (alone E defs fuel i s m)) by (unfold accepted, alone; destruct (run E defs fuel (fst m) i (fresh s)); exists v; exact R).
  assert (RM : forall m', In m' (pre ++ m :: post) -> m' = m \/ rejected (alone E defs fuel i s m')).
  { intros m' I'. assert (Q : m = m' \/ In m' (pre ++ post)) by (apply in_app_iff in I'; cbn in I'; rewrite in_app_iff; tauto).
    destruct Q as [-> |Q]; [now left|right]. destruct (O m' Q) as [es X]. unfold rejected, alone. destruct (run E defs fuel (fst m') i (fresh s)). now exists es. }
  apply (C100_stands_out E defs fuel custom _ i s m v P); [| |exact R].
  - intros m' I'. destruct (RM m' I') as [-> |N]; [now left|now right].
  - split; [apply in_elt|]. split; [exact AM|]. intros m' I' [w W]. destruct (RM m' I') as [-> |[es X]]; [now left|congruence].
Qed.
Print Assumptions C100_only_one.

(** C100: the same members in another order accept the same inputs, ... *)
Theorem C100_accepts_alike : forall E defs fuel custom ms ms' i s,
  st_partial s = PartialOff -> all_answer E defs fuel i s ms -> Permutation ms ms' ->
  ((exists v, fst (run E defs fuel (SUnion UnionSmart custom ms) i s) = VOk v) <->
   (exists v, fst (run E defs fuel (SUnion UnionSmart custom ms') i s) = VOk v)).
Proof.
  assert (K : forall E defs fuel custom ms i s, st_partial s = PartialOff -> all_answer E defs fuel i s ms ->
    ((exists v, fst (run E defs fuel (SUnion UnionSmart custom ms) i s) = VOk v) <-> exists m, In m ms /\ accepted (alone E defs fuel i s m))).
  { intros E defs fuel custom ms i s P A. change (run E defs fuel (SUnion UnionSmart custom ms) i s) with (validate_smart custom (members E defs fuel ms) i s).
    pose proof (C22_succeeds_iff custom (members E defs fuel ms) i s) as C. rewrite (outcomes_alone E defs fuel ms i s P) in C.
    rewrite C by (intros p Hp; apply in_map_iff in Hp; destruct Hp as (x & <- & X); now apply A). split.
    - intros (o & Ho & Ao). apply in_map_iff in Ho. destruct Ho as (x & <- & X). now exists x.
    - intros (m & M & Am). exists (alone E defs fuel i s m). split; [now apply in_map|exact Am]. }
  intros E defs fuel custom ms ms' i s P A Q.
  assert (A' : all_answer E defs fuel i s ms') by (intros m M; apply A; now apply (Permutation_in _ (Permutation_sym Q))).
  rewrite (K E defs fuel custom ms i s P A), (K E defs fuel custom ms' i s P A').
  split; intros (m & M & Am); exists m; (split; [|exact Am]); [now apply (Permutation_in _ Q)|now apply (Permutation_in _ (Permutation_sym Q))].
Qed.
Print Assumptions C100_accepts_alike.

(** ... give the same value where a member stands out, and count as the same match for the
    schema around the union, ... *)
Theorem C100_same_value : forall E defs fuel custom ms ms' i s m,
  st_partial s = PartialOff -> all_answer E defs fuel i s ms -> Permutation ms ms' -> stands_out E defs fuel i s ms m ->
  run E defs fuel (SUnion UnionSmart custom ms) i s = run E defs fuel (SUnion UnionSmart custom ms') i s.
Proof.
  intros E defs fuel custom ms ms' i s m P A Q S. pose proof S as (I & [v V] & B).
  assert (R : fst (run E defs fuel (fst m) i (fresh s)) = VOk v) by (unfold alone in V; destruct (run E defs fuel (fst m) i (fresh s)); exact V).
  rewrite (stands_full E defs fuel custom ms i s m v P A S R). symmetry. apply (stands_full E defs fuel custom ms' i s m v P); [| |exact R].
  - intros x X. apply A. now apply (Permutation_in _ (Permutation_sym Q)).
  - split; [now apply (Permutation_in _ Q)|]. split; [now exists v|]. intros x X. apply B. now apply (Permutation_in _ (Permutation_sym Q)).
Qed.
Print Assumptions C100_same_value.

(** ... and report the same errors, each member's own in its own order, where all refuse. *)
Theorem C100_same_errors : forall E defs fuel ms ms' i s,
  st_partial s = PartialOff -> Permutation ms ms' -> (forall m, In m ms -> rejected (alone E defs fuel i s m)) ->
  exists es es', fst (run E defs fuel (SUnion UnionSmart None ms) i s) = VErr (LineErrors es) /\
    fst (run E defs fuel (SUnion UnionSmart None ms') i s) = VErr (LineErrors es') /\ Permutation es es' /\
    es = concat (map (fun m => map (with_outer (LStr (snd m))) (errors_of (alone E defs fuel i s m))) ms).
Proof.
  assert (K : forall E defs fuel ms i s, st_partial s = PartialOff -> (forall m, In m ms -> rejected (alone E defs fuel i s m)) ->
    fst (run E defs fuel (SUnion UnionSmart None ms) i s) = VErr (LineErrors (concat (map (fun m => map (with_outer (LStr (snd m))) (errors_of (alone E defs fuel i s m))) ms)))).
  { intros E defs fuel ms i s P A. change (run E defs fuel (SUnion UnionSmart None ms) i s) with (validate_smart None (members E defs fuel ms) i s).
    pose proof (C24_smart_errors None (members E defs fuel ms) i s) as C. rewrite (outcomes_alone E defs fuel ms i s P) in C.
    rewrite C by (intros p Hp; apply in_map_iff in Hp; destruct Hp as (x & <- & X); now apply A). unfold labelled. rewrite map_map. do 3 f_equal. apply map_ext. intros m. unfold alone at 1. now destruct (run E defs fuel (fst m) i (fresh s)). }
  intros E defs fuel ms ms' i s P Q A.
  assert (A' : forall m, In m ms' -> rejected (alone E defs fuel i s m)) by (intros m M; apply A; now apply (Permutation_in _ (Permutation_sym Q))).
  eexists _, _. split; [exact (K E defs fuel ms i s P A)|]. split; [exact (K E defs fuel ms' i s P A')|]. split; [|reflexivity].
  clear K A A'. induction Q; cbn [map concat]; [reflexivity|now apply Permutation_app_head| |etransitivity; eassumption].
  rewrite !app_assoc. apply Permutation_app_tail, Permutation_app_comm.
Qed.
Print Assumptions C100_same_errors.

(** ** Where the order matters *)
(** Among members that accept equally well the first one is taken. *)
Theorem C100_ties_refuted : exists a b i s, st_partial s = PartialOff /\ all_answer ex_env (fun _ => None) 0 i s [a; b] /\
  fst (run ex_env (fun _ => None) 0 (SUnion UnionSmart None [a; b]) i s) = VOk (PBool true) /\
  fst (run ex_env (fun _ => None) 0 (SUnion UnionSmart None [b; a]) i s) = VOk (PInt 1).
Proof.
  exists (SBool false, lit "bool"), (xint, lit "int"), (IPy (PStr (lit "1"))), (call_state ITPython ex_opts).
  split; [reflexivity|]. split; [intros m [<- |[<- |[]]]; left; [exists (PBool true)|exists (PInt 1)]; vm_compute; reflexivity|].
  split; vm_compute; reflexivity.
Qed.
Print Assumptions C100_ties_refuted.
(** With allow_partial the order decides whether an input is accepted at all: a reference
    to a definition that is tried first switches allow_partial off for the members after it. *)
Theorem C100_partial_refuted : exists defs a b i s, st_partial s = PartialOn /\ all_answer ex_env defs 1 i s [a; b] /\
  fst (run ex_env defs 1 (SUnion UnionSmart None [a; b]) i s) = VOk (PList [PInt 1]) /\
  exists es, fst (run ex_env defs 1 (SUnion UnionSmart None [b; a]) i s) = VErr (LineErrors es) /\ length es = 2.
Proof.
  exists (fun k => match k with 0 => Some xstr | _ => None end), (SList xcoll (Some xint), lit "list"), (SRef 0, lit "ref"),
    (IPy (PList [PInt 1; PStr (lit "x")])), {| st_exactness := None; st_fields_set := None; st_partial := PartialOn; st_extra := st_extra (call_state ITPython ex_opts) |}.
  split; [reflexivity|]. split.
  - intros m [<- |[<- |[]]]; [left; exists (PList [PInt 1]); vm_compute; reflexivity|right]. eexists. vm_compute. reflexivity.
  - split; [vm_compute; reflexivity|]. eexists. split; [vm_compute; reflexivity|reflexivity].
Qed.
Print Assumptions C100_partial_refuted.

(** ** A concrete case *)
(** Of a number, a text and a list the text stands out for a text; of two records the one
    with more fields set. *)
Definition rec1 : schema := STypedDict (xinfos ExtraIgnore) [xfield (lit "a") true xint] None.
Definition rec2 : schema := STypedDict (xinfos ExtraIgnore) [xfield (lit "a") true xint; xfield (lit "b") true xint] None.
Definition three : list (schema * str) := [(xint, lit "int"); (xstr, lit "str"); (SList xcoll (Some xint), lit "list")].
Example C100_ex :
  let s := call_state ITPython ex_opts in let i := IPy (PStr (lit "1")) in
  all_answer ex_env (fun _ => None) 0 i s three /\ stands_out ex_env (fun _ => None) 0 i s three (xstr, lit "str") /\
  fst (run ex_env (fun _ => None) 0 (SUnion UnionSmart None three) i s) = VOk (PStr (lit "1")) /\
  fst (run ex_env (fun _ => None) 0 (SUnion UnionSmart None (rev three)) i s) = VOk (PStr (lit "1")).
Proof.
  cbv zeta. split; [|split].
  - intros m [<- |[<- |[<- |[]]]]; [left; exists (PInt 1); vm_compute; reflexivity|left; exists (PStr (lit "1")); vm_compute; reflexivity|right; eexists; vm_compute; reflexivity].
  - split; [right; now left|]. split; [exists (PStr (lit "1")); vm_compute; reflexivity|]. intros m [<- |[<- |[<- |[]]]] A; [right; vm_compute; exact I|now left|]. exfalso. destruct A as [v A]. vm_compute in A. discriminate A.
  - split; vm_compute; reflexivity.
Qed.
Example C100_ex_records :
  let s := call_state ITPython ex_opts in let i := IPy (PDict [(PStr (lit "a"), PInt 1); (PStr (lit "b"), PInt 2)]) in
  let ms := [(rec1, lit "one"); (rec2, lit "two")] in
  all_answer ex_env (fun _ => None) 0 i s ms /\ stands_out ex_env (fun _ => None) 0 i s ms (rec2, lit "two") /\
  fst (run ex_env (fun _ => None) 0 (SUnion UnionSmart None ms) i s) = fst (run ex_env (fun _ => None) 0 (SUnion UnionSmart None (rev ms)) i s).
Proof.
  cbv zeta. split; [|split].
  - intros m [<- |[<- |[]]]; left; eexists; vm_compute; reflexivity.
  - split; [right; now left|]. split; [eexists; vm_compute; reflexivity|]. intros m [<- |[<- |[]]] A; [right; vm_compute; left; constructor|now left].
  - vm_compute. reflexivity.
Qed.

(** ** A member that omits *)
(** C25 is about members that accept or refuse.  If one omits (by raising PydanticOmit), the
    inner union returns at once and leaves its own bookkeeping to what surrounds it, where
    the field is left out and validation goes on. *)
Definition omits : schema := SPlain (fun _ _ => inr XOmit) None.
Definition inner_union : schema := SUnion UnionSmart None [(omits, lit "x"); (xint, lit "y")].
(** C25: an outer union takes the text "1" for a number, though another member takes it as
    the text it is: the lax match was forgotten.  Without the omitted field it is right. *)
Definition holding (sc inner : schema) : schema := STypedDict (xinfos ExtraIgnore) [xfield (lit "a") true sc; xfield (lit "b") false inner] None.
Theorem C25_omit_outer_refuted : exists i,
  let outer inner := SUnion UnionSmart None [(holding xint inner, lit "int"); (holding xstr inner, lit "str")] in
  let out inner := fst (run ex_env (fun _ => None) 0 (outer inner) i (call_state ITPython ex_opts)) in
  out inner_union = VOk (PDict [(PStr (lit "a"), PInt 1)]) /\ out omits = VOk (PDict [(PStr (lit "a"), PStr (lit "1"))]).
Proof.
  exists (IPy (PDict [(PStr (lit "a"), PStr (lit "1")); (PStr (lit "b"), PInt 2)])). cbv zeta. split; vm_compute; reflexivity.
Qed.
Print Assumptions C25_omit_outer_refuted.
(** C25: nor is it confined to unions: a lax-or-strict field after the omitted one takes its
    strict schema first, as it would in a union. *)
Theorem C25_omit_later_refuted : exists i,
  let sc inner := STypedDict (xinfos ExtraIgnore) [xfield (lit "b") false inner; xfield (lit "a") true (SLaxOrStrict false xint xstr)] None in
  let out inner := fst (run ex_env (fun _ => None) 0 (sc inner) i (call_state ITPython ex_opts)) in
  out inner_union = VOk (PDict [(PStr (lit "a"), PStr (lit "1"))]) /\ out omits = VOk (PDict [(PStr (lit "a"), PInt 1)]).
Proof.
  exists (IPy (PDict [(PStr (lit "a"), PStr (lit "1")); (PStr (lit "b"), PInt 2)])). cbv zeta. split; vm_compute; reflexivity.
Qed.
Print Assumptions C25_omit_later_refuted.
