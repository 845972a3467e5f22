(** Reading back what a serializer wrote: the leaves, and the views of lists and dicts. *)
From Coq Require Import List NArith ZArith Bool Permutation Lia.
From Verif Require Import Base Utf8 Float64 IntParse IntParseProps Numbers BytesCodec BytesCodecSpec BytesCodecProps Decimal Values VState LookupKey Collections Child Inputs Scalars Wrappers Tuple ModelFields TypedDict Assign Classes Interp InterpSpec InterpProofs ConformSpec ConformProofs4 ConformProofs7 StableSpec StableProofs StableProofs2 StableProofs3 StableProofs4 NumbersProofs RoundTripSpec RoundTripForward RoundTripForward2.
From Verif Require NumbersSpec Filter SerBase Ser.
From Verif Require Import RoundTripSer RoundTripOut.
Import ListNotations.
Open Scope nat_scope.

Definition unclassed (i : input) : Prop := match i with IPy w => class_of w = None | _ => True end.
Lemma unclassed_defined i : unclassed i -> is_undefined i = false.
Proof. destruct i as [w| | |]; try reflexivity. destruct w; cbn; try reflexivity; discriminate. Qed.

Section Leaves.
Variables vba vbn : option bool.
Notation fresh := (fresh vba vbn). Notation gives := (gives vba vbn).

Lemma accept_gives A (m : state -> matched A) (a : A) r k (v : validator) i : (forall s, v i s = accept (m s) s k) -> (forall s, exists e, m s = VOk (a, e)) -> (forall s, k a s = (VOk r, s)) -> gives (eq r) v i.
Proof. intros V H K s C. destruct (H s) as [e Q]. rewrite V. unfold accept. rewrite Q, K. eexists _, _. split; [reflexivity|]. split; [reflexivity|]. now apply fresh_floor. Qed.

Lemma none_gives i : is_none_input i = true -> gives (eq PNone) none_validate i.
Proof. intros H s C. unfold none_validate. rewrite H. eexists _, _. split; [reflexivity|]. now split. Qed.
Lemma bool_gives st b i : (forall st, exists e, validate_bool st i = VOk (b, e)) -> gives (eq (PBool b)) (bool_validate st) i.
Proof. intros H. eapply (accept_gives _ (fun s => validate_bool (strict_or s st) i) b); [reflexivity|auto|reflexivity]. Qed.
Lemma int_checks c z e : int_fine c -> (forall k, c = Some k -> NumbersSpec.int_constraints_hold k z) -> int_value e = z ->
  match c with None => True | Some c => validate_constrained_int c e = NOk e end.
Proof.
  intros F H V. destruct c as [c|]; [|exact I]. specialize (H c eq_refl). rewrite int_values in V. subst z.
  destruct (constrained_int_iff c e) as [A _]; [|now apply A]. intros m Em. specialize (F c m eq_refl Em). split; [intros Z0; rewrite Z0 in F; now apply Z.lt_irrefl in F|intros [_ ->]; cbn in F; discriminate].
Qed.
Lemma int_gives md st c z i n : int_fine c -> (forall k, c = Some k -> NumbersSpec.int_constraints_hold k z) -> int_value n = z ->
  (forall st, exists e, validate_int md st i = VOk (n, e)) -> gives (eq (PInt z)) (int_validate md st c) i.
Proof.
  intros F H V R. eapply (accept_gives _ (fun s => validate_int md (strict_or s st) i) n); [reflexivity|auto|]. intros s. pose proof (int_checks c z n F H V) as K. destruct c as [c|]; [rewrite K|]; now rewrite V.
Qed.
Lemma float_gives pf st c f i : valid64 f = true -> bounds_fine c -> (floats_valid c f -> NumbersSpec.float_bounds_hold c f) ->
  (forall st, exists e, validate_float pf st i = VOk (f, e)) -> gives (eq (PFloat f)) (float_validate pf st c) i.
Proof.
  intros V B H R. eapply (accept_gives _ (fun s => validate_float pf (strict_or s st) i) f); [reflexivity|auto|]. intros s. cbv beta. cbv beta.
  rewrite (proj2 (constrained_float_iff c f V B) (H (conj V B))). reflexivity.
Qed.
Lemma checks_pass mn mx n : within mn mx n -> too_short mn n = None /\ too_long mx n = None.
Proof.
  intros [A B]. unfold too_short, too_long. split.
  - destruct mn as [m|]; [|reflexivity]. specialize (A m eq_refl). destruct (Nat.ltb_spec n m); [lia|reflexivity].
  - destruct mx as [m|]; [|reflexivity]. specialize (B m eq_refl). destruct (Nat.ltb_spec m n); [lia|reflexivity].
Qed.
Lemma str_gives ps fs tl tu c u i : case_kept c -> str_meets c u -> (forall st co, exists e, validate_str ps fs st co i = VOk (u, e)) -> gives (eq (PStr u)) (str_validate ps fs tl tu c) i.
Proof.
  intros [L U] (T & W & PT) R. eapply (accept_gives _ (fun s => validate_str ps fs (strict_or s (sc_strict c)) (sc_coerce_numbers c) i) u); [reflexivity|auto|]. intros s. cbv beta. cbv zeta.
  assert (Q : (if sc_strip c then trim u else u) = u) by (destruct (sc_strip c); auto). rewrite Q. destruct (checks_pass _ _ _ W) as [-> ->].
  assert (P : match sc_pattern c with Some p => p u | None => inl true end = inl true) by (destruct (sc_pattern c); auto). rewrite P, L, U. reflexivity.
Qed.
Lemma bytes_gives c b i : within (bc_min c) (bc_max c) (length b) -> (forall st, exists e, validate_bytes st (bc_mode c) i = VOk (PBytes b, e)) -> gives (eq (PBytes b)) (bytes_validate c) i.
Proof.
  intros W R. eapply (accept_gives _ (fun s => validate_bytes (strict_or s (bc_strict c)) (bc_mode c) i) (PBytes b)); [reflexivity|auto|]. intros s. cbv beta. unfold bytes_len. cbn [strip]. now destruct (checks_pass _ _ _ W) as [-> ->].
Qed.
End Leaves.

(** ** Views *)
Lemma arr_unclassed js mk is i : (forall l, class_of (mk l) = None) -> arr js mk is i -> unclassed i.
Proof. intros H. destruct js; intros (l & -> & _); [exact I|apply H]. Qed.
Lemma arr_not_none js mk is i : (forall l, mk l <> PNone) -> arr js mk is i -> is_none_input i = false.
Proof. intros H. destruct js; intros (l & -> & _); [reflexivity|]. specialize (H l). cbn. destruct (mk l); congruence. Qed.
Lemma arr_list js is i : arr js PList is i -> exists sq, (forall st, validate_list st i = VOk sq) /\ sq_items sq = map It is.
Proof. destruct js; intros (l & -> & ->); eexists; (split; [reflexivity|]); cbn; now rewrite map_map. Qed.
Lemma arr_tuple js is i : arr js PTuple is i -> exists sq, (forall st, validate_tuple st i = VOk sq) /\ sq_items sq = map It is.
Proof. destruct js; intros (l & -> & ->); eexists; (split; [reflexivity|]); cbn; now rewrite map_map. Qed.
Lemma arr_set js is i : arr js PSet is i -> exists sq, (forall st, validate_set st i = VOk sq) /\ sq_items sq = map It is.
Proof. destruct js; intros (l & -> & ->); eexists; (split; [reflexivity|]); cbn; now rewrite map_map. Qed.
Lemma arr_frozenset js is i : arr js PFrozenSet is i -> exists sq, (forall st, validate_frozenset st i = VOk sq) /\ sq_items sq = map It is.
Proof. destruct js; intros (l & -> & ->); eexists; (split; [reflexivity|]); cbn; now rewrite map_map. Qed.
Lemma obj_entries js repr es i : obj js es i -> exists en, (forall st, dict_entries repr st i = VOk en) /\ Forall2 (fun e n => exists kl, n = Entry (fst e) kl (snd e)) es en.
Proof.
  destruct js; intros (l & -> & ->); eexists; (split; [reflexivity|]); induction l as [|[k v] l IH]; cbn [map]; constructor; auto; cbn; eauto.
Qed.
Lemma obj_unclassed js es i : obj js es i -> unclassed i. Proof. destruct js; intros (l & -> & _); reflexivity || exact I. Qed.
Lemma obj_not_none js es i : obj js es i -> is_none_input i = false. Proof. destruct js; intros (l & -> & _); reflexivity. Qed.
Lemma rec_unclassed js es i : rec_obj js es i -> unclassed i. Proof. destruct js; intros (l & -> & _); reflexivity || exact I. Qed.
Lemma rec_not_none js es i : rec_obj js es i -> is_none_input i = false. Proof. destruct js; intros (l & -> & _); reflexivity. Qed.

(** Objects whose keys are names. *)
Lemma seqb_eq (a b : str) : str_eqb a b = true <-> a = b.
Proof.
  split; [|intros ->; induction b as [|c b IH]; cbn; [reflexivity|]; now rewrite N.eqb_refl, IH].
  revert b. induction a as [|c a IH]; intros [|d b]; cbn; try discriminate; [reflexivity|]. intros H. apply andb_prop in H. destruct H as [A B]. apply N.eqb_eq in A. f_equal; auto.
Qed.
Lemma assoc_in A k (l : list (str * A)) v : assoc k l = Some v -> In (k, v) l.
Proof. induction l as [|[a b] l IH]; cbn; [discriminate|]. destruct (str_eqb k a) eqn:Q; [intros [= ->]; apply seqb_eq in Q; subst; now left|right; auto]. Qed.
Lemma in_assoc A k (l : list (str * A)) v : NoDup (map fst l) -> In (k, v) l -> assoc k l = Some v.
Proof.
  induction l as [|[a b] l IH]; cbn; [easy|]. intros ND. inversion ND as [|? ? N1 N2]; subst. intros [[= -> ->]|J]; [now rewrite (proj2 (seqb_eq k k) eq_refl)|].
  destruct (str_eqb k a) eqn:Q; [|now apply IH]. apply seqb_eq in Q. subst a. exfalso. apply N1. now apply (in_map fst) in J.
Qed.
Lemma assoc_none A k (l : list (str * A)) : assoc k l = None <-> ~ In k (map fst l).
Proof.
  induction l as [|[a b] l IH]; cbn; [intuition|]. destruct (str_eqb k a) eqn:Q; [apply seqb_eq in Q; subst; intuition discriminate|].
  rewrite IH. split; [intros N [->|J]; [|now apply N]; rewrite (proj2 (seqb_eq k k) eq_refl) in Q; discriminate|intros N J; apply N; now right].
Qed.
Lemma assoc_rev A k (l : list (str * A)) : NoDup (map fst l) -> assoc k (rev l) = assoc k l.
Proof.
  intros ND. destruct (assoc k l) as [v|] eqn:Q.
  - apply in_assoc; [rewrite map_rev; now apply NoDup_rev|]. apply assoc_in in Q. now apply -> in_rev.
  - apply assoc_none in Q. apply assoc_none. rewrite map_rev. intros J. apply Q. now apply in_rev.
Qed.
Lemma assoc_map A B (f : A -> B) k (l : list (str * A)) : assoc k (map (fun e => (fst e, f (snd e))) l) = option_map f (assoc k l).
Proof. induction l as [|[a b] l IH]; cbn; [reflexivity|]. now destruct (str_eqb k a). Qed.
Lemma get_strs k (r : list (str * pyval)) : dict_get (PStr k) (map (fun e => (PStr (fst e), snd e)) r) = assoc k r.
Proof.
  induction r as [|[a b] r IH]; [reflexivity|]. cbn [map fst snd dict_get assoc].
  destruct (str_eqb k a) eqn:Q.
  - apply seqb_eq in Q. subst a. now rewrite str_key_refl.
  - destruct (py_eq (PStr a) (PStr k)) eqn:Q2; [apply str_key_eq in Q2; subst; rewrite (proj2 (seqb_eq _ _) eq_refl) in Q; discriminate|exact IH].
Qed.
Definition view_of (js : bool) (repr : pyval -> str) (i : input) : mdict :=
  match i with IJson (JObj l) => json_mdict l | IPy (PDict l) => py_mdict repr l | _ => py_mdict repr [] end.
Lemma view_dict js repr rows i : rec_obj js rows i -> forall st, validate_dict repr st i = VOk (view_of js repr i).
Proof. destruct js; intros (l & -> & _) st; reflexivity. Qed.
Lemma view_model js repr ga rows i : rec_obj js rows i -> forall st fa, validate_model_fields repr ga st fa i = VOk (view_of js repr i).
Proof. destruct js; intros (l & -> & _) st fa; [reflexivity|]. cbn. now destruct fa. Qed.
Lemma view_attr js repr rows i : rec_obj js rows i -> md_is_attr (view_of js repr i) = false.
Proof. destruct js; intros (l & -> & _); reflexivity. Qed.
Lemma view_iter js repr rows i : rec_obj js rows i -> exists es, md_iter (view_of js repr i) = VOk es /\ forall e, In e es -> exists key kl val k, e = Entry key kl val /\ key_str key = VOk k /\ In k (map fst rows).
Proof.
  destruct js; intros (l & -> & H); cbn [view_of json_mdict py_mdict md_iter]; (eexists; split; [reflexivity|]).
  - subst rows. intros e J. apply in_map_iff in J. destruct J as ([k v] & <- & J). eexists _, _, _, k. split; [reflexivity|]. split; [reflexivity|]. rewrite map_map. cbn. now apply (in_map fst) in J.
  - destruct H as (r & -> & ->). intros e J. rewrite map_map in J. apply in_map_iff in J. destruct J as ([k v] & <- & J). eexists _, _, _, k. split; [reflexivity|]. split; [reflexivity|]. rewrite map_map. cbn. now apply (in_map fst) in J.
Qed.
Lemma view_get js repr rows i all k look : rec_obj js rows i -> NoDup (map fst rows) -> incl (map fst rows) all -> finds all k look ->
  exists p, lp_first p = k /\ md_get (view_of js repr i) look = VOk (option_map (fun v => (p, v)) (assoc k rows)).
Proof.
  intros H ND IN F.
  assert (AN : forall a, ~ In a all -> assoc a rows = None) by (intros a N; apply assoc_none; intros J; apply N, IN, J).
  assert (G : forall look, (exists p1 p2, look = Choice p1 p2) \/ (exists p, look = Simple p) -> md_get (view_of js repr i) look = VOk (match look with
    | Simple p => option_map (fun v => (p, v)) (assoc (lp_first p) rows)
    | Choice p1 p2 => match assoc (lp_first p1) rows with Some v => Some (p1, v) | None => option_map (fun v => (p2, v)) (assoc (lp_first p2) rows) end
    | PathChoices _ => None end)).
  { clear - H ND. intros look SH. destruct js; destruct H as (l & -> & H); cbn [view_of json_mdict py_mdict md_get].
    - subst rows. rewrite map_map in ND. cbn [fst] in ND. destruct SH as [(p1 & p2 & ->)|(p & ->)]; cbn [json_get]; unfold json_last; rewrite !assoc_rev, !assoc_map by exact ND.
      + destruct (assoc (lp_first p1) l); [reflexivity|]. now destruct (assoc (lp_first p2) l).
      + now destruct (assoc (lp_first p) l).
    - destruct H as (r & -> & ->). destruct SH as [(p1 & p2 & ->)|(p & ->)]; cbn [py_get_dict_item]; rewrite !get_strs, !assoc_map.
      + destruct (assoc (lp_first p1) r); [reflexivity|]. now destruct (assoc (lp_first p2) r).
      + now destruct (assoc (lp_first p) r). }
  destruct F as [|p N|p N].
  - exists (path_from_str k). split; [reflexivity|]. rewrite G by (right; eauto). reflexivity.
  - rewrite G by (left; eauto). cbn [path_from_str lp_first]. destruct (assoc k rows) as [v|] eqn:Q; [now exists (path_from_str k)|].
    destruct N as [<-|N]; [exists p; split; [reflexivity|]; now rewrite Q|]. exists (path_from_str k). split; [reflexivity|]. now rewrite (AN _ N).
  - rewrite G by (left; eauto). cbn [path_from_str lp_first]. rewrite (AN _ N). now exists (path_from_str k).
Qed.

(** The rows of an output object, by the names of the fields. *)
Lemma F2_in_l A B (Q : A -> B -> Prop) l m a : Forall2 Q l m -> In a l -> exists b, In b m /\ Q a b.
Proof. induction 1 as [|x y l m H F IH]; [easy|]. intros [<-|J]; [exists y; split; [now left|exact H]|]. destruct (IH J) as (b & B1 & B2). exists b. split; [now right|exact B2]. Qed.
Lemma F2_in_r A B (Q : A -> B -> Prop) l m b : Forall2 Q l m -> In b m -> exists a, In a l /\ Q a b.
Proof. induction 1 as [|x y l m H F IH]; [easy|]. intros [<-|J]; [exists x; split; [now left|exact H]|]. destruct (IH J) as (a & B1 & B2). exists a. split; [now right|exact B2]. Qed.
Section Rows.
Variable kf : str -> str.
Variable names : list str.
Hypothesis names_keys : NoDup (map kf names).
Variable T : str -> pyval -> input -> Prop.
Lemma kf_inj a b : In a names -> In b names -> kf a = kf b -> a = b.
Proof.
  revert names_keys. induction names as [|n l IH]; [easy|]. cbn [map]. intros ND. inversion ND as [|? ? N1 N2]; subst. intros [->|A] [->|B] Q; auto.
  - exfalso. apply N1. rewrite Q. now apply in_map.
  - exfalso. apply N1. rewrite <- Q. now apply in_map.
Qed.
Definition row_of (kv : pyval * pyval) (row : str * input) : Prop := exists n, fst kv = PStr n /\ In n names /\ fst row = kf n /\ T n (snd kv) (snd row).
Lemma rows_in d rows : Forall2 row_of d rows -> forall k, In k (map fst rows) -> exists n x, In (PStr n, x) d /\ k = kf n.
Proof.
  induction 1 as [|[a b] [k i] d rows (n & A & B & C & D) F IH]; intros q J; [destruct J|]. cbn in *. destruct J as [<-|J].
  - exists n, b. subst. now split; [left|].
  - destruct (IH _ J) as (m & x & M & Q). exists m, x. split; [now right|exact Q].
Qed.
Lemma rows_names d rows : Forall2 row_of d rows -> incl (map fst rows) (map kf names).
Proof. induction 1 as [|kv row d rows (n & _ & B & C & _) F IH]; intros q J; [destruct J|]. destruct J as [<-|J]; [rewrite C; now apply in_map|now apply IH]. Qed.
Lemma rows_nodup d rows : Forall2 row_of d rows -> distinct fst d -> NoDup (map fst rows).
Proof.
  induction 1 as [|[a b] [k i] d rows (n & A & B & C & D) F IH]; intros DI; [constructor|]. inversion DI as [|? ? D1 D2]; subst. cbn in *. subst. constructor; [|now apply IH].
  intros J. apply in_map_iff in J. destruct J as ([k2 i2] & Q & J). cbn in Q. subst k2.
  destruct (F2_in_r _ _ _ _ _ _ F J) as ([a2 b2] & J2 & (m & M1 & M2 & M3 & _)). cbn in *. subst a2. apply kf_inj in M3; auto. subst m. rewrite Forall_forall in D1. specialize (D1 _ J2). change (py_eq (PStr n) (PStr n) = false) in D1. now rewrite str_key_refl in D1.
Qed.
Lemma rows_get d rows n : Forall2 row_of d rows -> distinct fst d -> In n names -> match dict_get (PStr n) d with Some x => exists i, assoc (kf n) rows = Some i /\ T n x i | None => assoc (kf n) rows = None end.
Proof.
  intros F DI N. pose proof (rows_nodup _ _ F DI) as ND. destruct (dict_get (PStr n) d) as [x|] eqn:G.
  - apply get_some_first in G; [|intros a J; apply in_map_iff in J; destruct J as (kv & <- & J); destruct (F2_in_l _ _ _ _ _ _ F J) as (row & _ & (m & M & _)); now exists m].
    destruct (F2_in_l _ _ _ _ _ _ F G) as ([k i] & J & (m & M1 & M2 & M3 & M4)). cbn in *. injection M1 as <-. subst k. exists i. split; [now apply in_assoc|exact M4].
  - apply assoc_none. intros J. destruct (rows_in _ _ F _ J) as (m & x & J2 & Q).
    assert (In m names). { destruct (F2_in_l _ _ _ _ _ _ F J2) as (row & _ & (m' & M1 & M2 & _)). cbn in M1. now injection M1 as <-. }
    apply kf_inj in Q; auto. subst m. rewrite (get_in _ _ _ DI J2) in G. discriminate.
Qed.
End Rows.
