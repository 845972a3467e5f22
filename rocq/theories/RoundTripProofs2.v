(** The schemas of RoundTripSpec.v: hashable values, tuples and fields. *)
From Coq Require Import List NArith ZArith Bool Permutation Lia.
From Verif Require Import Base Utf8 Float64 IntParse IntParseProps Numbers BytesCodec BytesCodecSpec BytesCodecProps Decimal Values VState LookupKey Collections Child Inputs Scalars Wrappers Tuple ModelFields TypedDict Assign Classes Interp InterpSpec InterpProofs ConformSpec ConformProofs4 ConformProofs7 StableSpec StableProofs StableProofs2 StableProofs3 StableProofs4 NumbersProofs RoundTripSpec RoundTripForward RoundTripForward2.
From Verif Require NumbersSpec Filter SerBase Ser.
From Verif Require Import RoundTripSer RoundTripOut RoundTripProofs.
Import ListNotations.
Open Scope nat_scope.

Lemma in_somes A (x : A) l : In x (somes l) -> In (Some x) l.
Proof. unfold somes. intros J. apply in_flat_map in J. destruct J as ([y|] & J & K); [|destruct K]. destruct K as [<-|[]]. exact J. Qed.
Lemma slots_all (C : schema -> pyval -> Prop) (slots : list (schema * option pyval)) : (forall sc v, In (sc, Some v) slots -> C sc v) -> (forall sc, In (sc, None) slots -> False) ->
  Forall2 C (map fst slots) (somes (map snd slots)).
Proof.
  induction slots as [|[sc [v|]] slots IH]; intros A B; cbn; [constructor| |exfalso; apply (B sc); now left].
  constructor; [apply A; now left|]. apply IH; [intros; apply A; now right|intros; apply (B sc0); now right].
Qed.
Lemma F2_repeat A B (Q : A -> B -> Prop) a b n : Q a b -> Forall2 Q (repeat a n) (repeat b n).
Proof. intros H. induction n; cbn; constructor; auto. Qed.
Lemma F2_cut A B (Q : A -> B -> Prop) l m k : Forall2 Q l m -> Forall2 Q (firstn k l) (firstn k m) /\ Forall2 Q (skipn k l) (skipn k m).
Proof. intros H. revert k. induction H as [|a b l m H F IH]; intros [|k]; cbn; [split; constructor|split; constructor|split; [constructor|now constructor]|]. destruct (IH k). split; [now constructor|assumption]. Qed.
Lemma F2_nth A B (Q : A -> B -> Prop) l m k d : Forall2 Q l m -> k < length l -> exists a, nth_error l k = Some a /\ Q a (nth k m d).
Proof. intros H. revert k. induction H as [|a b l m H F IH]; intros [|k] K; cbn in *; try lia; [now exists a|]. apply IH. lia. Qed.

Section Pairs.
Variable E : env.
Variable defs : nat -> option schema.
Variable SE : SerBase.env.
Variables (ba : option bool) (rt : bool) (vba vbn : option bool) (js : bool).
Notation pair := (pair defs E ba rt vba vbn js).
Notation conf := (conforms (unseen E) defs false).
Notation neat := (neat js ba rt).
Notation plain := (plain (e_max_digits E)).
Notation out := (out js).
Hypothesis DP : definitions_pair defs E ba rt vba vbn js (SerBase.e_def SE).

Lemma pair_kept sc : omittable defs sc -> forall se, pair sc se -> False.
Proof.
  induction 1 as [sc O|sc c J O IH|k d D O IH]; intros se P.
  - inversion P; subst; cbn in O; auto; try (destruct o; auto; congruence).
    + destruct O as [(f & kw & A & _)|(f & v & A & _)]; congruence.
    + destruct O as [(f & kw & A & _)|(f & v & A & _)]; congruence.
  - inversion P; subst; cbn in J; try (destruct J; fail); try (destruct J as [<-|[]]; eauto; fail).
    + destruct (F2_in_l _ _ _ _ _ _ H J) as (s & _ & Q). eauto.
    + destruct J as [<-|[]]. inversion O; subst; cbn in *; auto.
  - specialize (DP k). rewrite D in DP. destruct (SerBase.e_def SE k) as [s|]; [|contradiction]. eauto.
Qed.

Lemma conf_tuple c items v : conf (STuple c items) v -> exists (slots : list (schema * option pyval)) n, v = PTuple (somes (map snd slots)) /\
  map fst slots = expanded items (tn_variadic c) n /\ (forall sc v, In (sc, Some v) slots -> conf sc v) /\ (forall sc, In (sc, None) slots -> omittable defs sc) /\
  (forall m, tn_min c = Some m -> m <= length (somes (map snd slots))) /\
  (forall m, tn_max c = Some m -> (forall sc, In sc items -> ~ defaulted defs sc) -> length (somes (map snd slots)) <= m).
Proof. intros C. inversion C; subst. exists slots, n. repeat split; assumption. Qed.

(** A hashable value is equal to itself only. *)
Lemma flat_equal sc : flat sc = true -> forall v w, conf sc v -> equal v w -> v = w.
Proof.
  induction sc as [sc IH] using schema_children_ind. intros FL v w C Q. destruct sc; try discriminate FL.
  - inversion C; subst; inversion Q; subst; auto.
  - inversion C; subst; inversion Q; subst; auto.
  - inversion C; subst; inversion Q; subst; auto.
  - inversion C; subst; inversion Q; subst; auto.
  - inversion C; subst; inversion Q; subst; auto.
  - inversion C; subst; inversion Q; subst; auto; discriminate.
  - destruct frozen; [|discriminate]. inversion C; subst; inversion Q; subst; auto.
  - cbn in FL. rewrite forallb_forall in FL. apply conf_tuple in C. destruct C as (slots & n & -> & M1 & M2 & M3 & M4 & M5). inversion Q as [|?|? m F| | |]; subst; [reflexivity|]. f_equal. apply F2_eq.
    assert (X : forall x, In x (somes (map snd slots)) -> exists sc, In sc items /\ conf sc x).
    { intros x J. apply in_somes in J. apply in_map_iff in J. destruct J as ([sc o] & K & J). cbn in K. subst o. exists sc. split; [|now apply M2].
      apply (expanded_in _ _ (tn_variadic c) n). rewrite <- M1. now apply (in_map fst) in J. }
    revert X F. generalize (somes (map snd slots)). intros l X F. clear - X F FL IH. induction F as [|x y l m H F IH2]; constructor; [|apply IH2; intros; apply X; now right].
    destruct (X x (or_introl eq_refl)) as (sc & J & K). apply (IH sc); auto. 
  - cbn in FL. inversion C; subst; [inversion Q; subst; auto|]. eapply IH; eauto. now left.
Qed.

Lemma tuple_parts c items l : conf (STuple c items) (PTuple l) -> (forall sc, In sc items -> exists se, pair sc se) ->
  exists n, Forall2 conf (expanded items (tn_variadic c) n) l /\ (forall m, tn_min c = Some m -> m <= length l) /\
    (forall m, tn_max c = Some m -> (forall sc, In sc items -> ~ defaulted defs sc) -> length l <= m).
Proof.
  intros C P. apply conf_tuple in C. destruct C as (slots & n & LL & M1 & M2 & M3 & M4 & M5). apply (f_equal (fun v => match v with PTuple l => l | _ => [] end)) in LL. cbn in LL. subst l. exists n. split; [|split; assumption].
  rewrite <- M1. apply slots_all; [exact M2|]. intros sc J. pose proof (M3 _ J) as O.
  destruct (P sc) as (se & PS); [apply (expanded_in _ _ (tn_variadic c) n); rewrite <- M1; now apply (in_map fst) in J|]. exact (pair_kept _ O _ PS).
Qed.
Lemma tuple_rel L c items ss n m : Forall2 pair items ss -> (forall k, tn_variadic c = Some k -> k < length items) -> m = length (expanded items (tn_variadic c) n) ->
  Forall2 (fun sc z => exists se, pair sc se /\ z = Ser.build SE L se) (expanded items (tn_variadic c) n) (Ser.tuple_serializers L (map (Ser.build SE L) ss) (tn_variadic c) m).
Proof.
  intros F K M.
  assert (F' : Forall2 (fun sc z => exists se, pair sc se /\ z = Ser.build SE L se) items (map (Ser.build SE L) ss)) by (apply F2_map_r; revert F; apply F2_imp; intros a b P; now exists b).
  unfold expanded, Ser.tuple_serializers in *. destruct (tn_variadic c) as [k|]; [|exact F']. specialize (K k eq_refl).
  destruct (F2_nth _ _ _ _ _ k (Ser.any_ser L) F' K) as (sc & N & Q). rewrite N in M |- *. rewrite !app_length, repeat_length, firstn_length, skipn_length in M.
  rewrite <- (F2_len _ _ _ _ _ F'). replace (m + 1 - length items) with n by lia. replace (k + 1) with (S k) by lia.
  apply Forall2_app; [apply (F2_cut _ _ _ _ _ k F')|]. apply Forall2_app; [now apply F2_repeat|apply (F2_cut _ _ _ _ _ (S k) F')].
Qed.

Lemma out_tuple_pair L c items ss l x i : Forall2 pair items ss -> (forall k, tn_variadic c = Some k -> k < length items) -> conf (STuple c items) (PTuple l) -> neat x ->
  out (Ser.build SE L (SerBase.SerTuple Filter.any_filter ss (tn_variadic c))) (PTuple l) x i ->
  exists n izs, map snd izs = l /\ arr js PTuple (map fst izs) i /\ 
    Forall2 (fun sc p => exists se, pair sc se /\ conf sc (snd p) /\ out (Ser.build SE L se) (snd p) x (fst p)) (expanded items (tn_variadic c) n) izs /\
    (forall m, tn_min c = Some m -> m <= length l) /\ (forall m, tn_max c = Some m -> (forall sc, In sc items -> ~ defaulted defs sc) -> length l <= m).
Proof.
  intros F K C NE O. destruct (tuple_parts c items l C) as (n & FC & MN & MX). { intros sc J. destruct (F2_in_l _ _ _ _ _ _ F J) as (s & _ & Q). eauto. }
  pose proof (tuple_rel L c items ss n (length l) F K ltac:(symmetry; apply (F2_len _ _ _ _ _ FC))) as TR.
  destruct (out_tuple js rt ba L (map (Ser.build SE L) ss) (tn_variadic c) l x i _ _ _ TR FC) as (izs & A & B & D); [|exact NE|exact O|].
  - intros V. rewrite V in TR. cbn in TR. rewrite <- (F2_len _ _ _ _ _ TR). rewrite V in FC. exact (F2_len _ _ _ _ _ FC).
  - exists n, izs. split; [exact A|]. split; [exact B|]. split; [|split; assumption]. revert D. apply F2_imp. intros sc p (z & (se & P & ->) & Y & Z). now exists se.
Qed.

End Pairs.
Section Flat.
Variable E : env.
Variable defs : nat -> option schema.
Variable SE : SerBase.env.
Variables (ba : option bool) (rt : bool) (vba vbn : option bool).
Notation pair := (pair defs E ba rt vba vbn false).
Notation conf := (conforms (unseen E) defs false).
Notation neat := (neat false ba rt).
Notation plain := (plain (e_max_digits E)).
Notation out := (out false).
Hypothesis DP : definitions_pair defs E ba rt vba vbn false (SerBase.e_def SE).
(** In Python mode hashable values are given back. *)
Lemma flat_out L : forall sc se, pair sc se -> flat sc = true -> forall v x w, plain v -> conf sc v -> neat x -> snd (Ser.z_py (Ser.build SE L se) v None None x) = SerBase.Good w -> w = v.
Proof.
  induction sc as [sc IH] using schema_children_ind. intros se P FL v x w PL C NE H.
  assert (O : out (Ser.build SE L se) v x (IPy w)) by now exists w.
  destruct sc; try discriminate FL; inversion P; subst se; subst; cbn [Ser.build] in O.
  - inversion C; subst. apply out_none in O. now injection O.
  - inversion C; subst. apply out_bool in O. now injection O.
  - inversion C; subst. apply out_int in O. now injection O.
  - inversion C; subst. apply out_float in O. now injection O.
  - inversion C; subst. inversion PL; subst. apply out_str in O; [|assumption]. now injection O.
  - inversion C; subst. inversion PL; subst; try discriminate. apply (out_bytes false rt ba) in O; [|exact NE]. cbn in O. injection O as ->. congruence.
  - discriminate.
  - inversion C; subst. inversion PL; subst.
    assert (KK : forall v w, In v l -> snd (Ser.z_py (Ser.build SE L s) v None None x) = SerBase.Good w -> w = v).
    { intros v' w' J H'. eapply (IH sc (or_introl eq_refl)); eauto. now apply H7. }
    apply (out_set false rt ba) in O; auto. destruct O as (is & (l' & A & B) & F). injection A as ->. f_equal. clear - B F KK. subst is.
    revert l' F. induction l as [|v l IHl]; intros [|y l'] F; cbn [map] in F; inversion F as [|? ? ? ? (w & A & G) F']; subst; [reflexivity|]. injection A as <-.
    f_equal; [apply (KK v y); [now left|exact G]|]. apply IHl; [intros; apply KK; [now right|assumption]|exact F'].
  - cbn in FL. rewrite forallb_forall in FL. assert (exists l, v = PTuple l) as (l & ->) by (inversion C; eauto). inversion PL as [| | | | | | |? PI| | | |]; subst.
    match goal with F : Forall2 _ items ss, K : forall k, tn_variadic c = Some k -> _ |- _ => pose proof F as FF; pose proof K as KV end.
    destruct (out_tuple_pair E defs SE ba rt vba vbn false DP L c items ss l x (IPy w) FF KV C NE O) as (n & izs & A & (l' & B1 & B2) & D & _). injection B1 as ->. f_equal.
    assert (X : Forall (fun p => fst p = IPy (snd p)) izs).
    { apply Forall_forall. intros p J. destruct (F2_in_r _ _ _ _ _ _ D J) as (sc & JS & (se & P1 & P2 & (w & P3 & P4))). rewrite P3. f_equal. apply expanded_in in JS. eapply (IH sc); eauto. apply PI. subst l. now apply in_map. }
    subst l. clear - B2 X. revert l' B2. induction X as [|p izs H X IHX]; intros [|y l'] B2; try discriminate; [reflexivity|]. cbn in B2. injection B2 as B2 B3. cbn. f_equal; [congruence|auto].
  - cbn in FL. destruct (match v with PNone => true | _ => false end) eqn:VN.
    + destruct v; try discriminate. apply out_null in O. now injection O.
    + apply out_nullable in O; [|intros ->; discriminate]. destruct O as (w' & [= <-] & G). inversion C; subst; [discriminate|]. eapply (IH _ (or_introl eq_refl)); eauto.
Qed.
End Flat.
