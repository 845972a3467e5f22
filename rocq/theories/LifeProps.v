(** C97: assignments never take a model instance out of its schema. *)
From Coq Require Import List NArith ZArith Bool Lia.
From Verif Require Import Base Float64 Values VState LookupKey LookupKeyProofs Collections CollectionsProofs Child Inputs Scalars Wrappers ModelFields Assign AssignSpec AssignProofs AssignProps Classes Interp InterpSpec InterpProofs InterpExamples
  ConformSpec ConformProofs ConformProofs8 ConformProps Api LifeSpec StringsProps.
Import ListNotations.
Open Scope nat_scope.

Lemma keyed_distinct d : keyed d -> distinct fst d.
Proof.
  induction d as [|[k v] d IH]; intros K; [constructor|]. constructor.
  - apply Forall_forall. intros [k' v'] I. destruct K as [K N]. destruct (K k v (or_introl eq_refl)) as [a ->]. destruct (K k' v' (or_intror I)) as [b ->].
    cbn [fst]. rewrite py_eq_str. apply str_eqb_neq. intros ->. inversion_clear N as [|? ? X _]. apply X. apply in_map_iff. now exists (PStr b, v').
  - apply IH. exact (keyed_tail _ _ K).
Qed.
Lemma distinct_keyed d : (forall k v, In (k, v) d -> exists n, k = PStr n) -> distinct fst d -> keyed d.
Proof.
  intros S D. split; [exact S|]. induction D as [|[k v] d F D IH]; [constructor|]. cbn [map fst]. constructor.
  - intros X. apply in_map_iff in X. destruct X as ([k' v'] & Q & X). cbn in Q. subst k'. rewrite Forall_forall in F. specialize (F _ X). cbn in F.
    destruct (S k v (or_introl eq_refl)) as [n ->]. rewrite py_eq_str, str_eqb_refl in F. discriminate.
  - apply IH. intros k' v' I. apply (S k' v'). now right.
Qed.
Lemma keyed_in n v d : keyed d -> dict_get (PStr n) d = Some v <-> In (PStr n, v) d.
Proof.
  induction d as [|[k w] d IH]; intros K; [cbn; split; [discriminate|intros []]|].
  destruct (proj1 K k w (or_introl eq_refl)) as [a ->]. specialize (IH (keyed_tail _ _ K)). cbn [dict_get]. rewrite py_eq_str.
  destruct (str_eqb a n) eqn:Q.
  - apply str_eqb_eq in Q. subst a. split; [intros [= ->]; now left|]. intros [[= ->]|I]; [reflexivity|].
    exfalso. destruct K as [_ K]. inversion_clear K as [|? ? X _]. apply X. apply in_map_iff. now exists (PStr n, v).
  - rewrite IH. split; [now right|]. intros [[= -> ->]|I]; [rewrite str_eqb_refl in Q; discriminate|exact I].
Qed.

Section Step.
Variables (E : env) (defs : nat -> option schema) (c : finfos) (fields : list (finfo * schema)) (ex : option schema) (fuel : nat).
Hypothesis W : holds_of proper defs (SModelFields c fields ex None).
Let cf := fields_of E defs fuel c fields ex None.
Let sc := SModelFields c fields ex None.

Lemma declared_iff n : declared cf n <-> exists f s, In (f, s) fields /\ fi_name f = n.
Proof.
  split.
  - intros (g & I & N). cbn in I. apply in_map_iff in I. destruct I as ([f s] & <- & I). now exists f, s.
  - intros (f & s & I & N). exists (mk_field f (eval E (refs E defs fuel 0) s)). split; [|exact N]. cbn. apply in_map_iff. now exists (f, s).
Qed.
Definition alive (m : minst) : Prop := exists v, contents m = Some v /\ conforms E defs false sc v /\ apart fields m.

Lemma alive_parts m : alive m -> exists fs, mi_set m = Some (PSet fs) /\ keyed (mi_dict m) /\
  (forall k v, In (k, v) (mi_dict m) -> exists f s, In (f, s) fields /\ k = PStr (fi_name f) /\ conforms E defs false s v) /\
  (forall f s, In (f, s) fields -> In (PStr (fi_name f)) (map fst (mi_dict m)) \/ omittable defs s) /\
  (fo_extra c <> ExtraAllow -> mi_extra m = PNone) /\
  (fo_extra c = ExtraAllow -> exists e, mi_extra m = PDict e /\ keyed e /\ forall k v, In (k, v) e -> forall s, ex = Some s -> conforms E defs false s v) /\
  (forall y, In y fs -> In y (map fst (mi_dict m)) \/ exists e, mi_extra m = PDict e /\ In y (map fst e)).
Proof.
  intros (v & C & H & A). unfold contents in C. destruct (mi_set m) as [fs0|] eqn:S; [|discriminate]. injection C as <-. unfold sc in H.
  inversion H as []; subst.
  match goal with D : distinct fst (mi_dict m), F : forall k v, In (k, v) (mi_dict m) -> _ |- _ => assert (K : keyed (mi_dict m)) by (apply distinct_keyed; [intros k v I; destruct (F k v I) as (? & ? & _ & -> & _); eauto|exact D]) end.
  eexists. split; [reflexivity|]. split; [exact K|]. split; [assumption|]. split; [assumption|]. split; [assumption|]. split; [|assumption].
  match goal with X : fo_extra c = ExtraAllow -> _ |- _ => intros Q; destruct (X Q) as (e & -> & D & F) end.
  exists e. split; [reflexivity|]. split; [apply distinct_keyed; [intros k v I; destruct (F k v I) as (n & -> & _); eauto|exact D]|].
  intros k v I. destruct (F k v I) as (n & _ & G & _). exact G.
Qed.

Lemma alive_instance m : alive m -> instance_of cf m.
Proof.
  intros AL. destruct (alive_parts m AL) as (fs & S & K & F & R & N & X & T). destruct AL as (v & _ & _ & A).
  split; [exact K|]. split.
  - exists fs. split; [exact S|]. intros y I. destruct (T y I) as [J|(e & Q & J)]; apply in_map_iff in J; destruct J as ([k w] & <- & J).
    + destruct (proj1 K k w J) as [n ->]. now exists n.
    + destruct (extra_behavior_eqb (fo_extra c) ExtraAllow) eqn:B.
      * destruct X as (e' & Q' & K' & _); [destruct (fo_extra c); try discriminate B; reflexivity|]. rewrite Q in Q'. injection Q' as <-. destruct (proj1 K' k w J) as [n ->]. now exists n.
      * rewrite N in Q; [discriminate|]. intros Q2. rewrite Q2 in B. discriminate B.
  - cbn [cf fields_of mk_fields fc_extra]. destruct (fo_extra c) eqn:B; try (apply N; discriminate).
    destruct (X eq_refl) as (e & Q & K' & _). exists e. split; [exact Q|]. split; [exact K'|]. split.
    + intros n [w G] D. apply declared_iff in D. destruct D as (f & s & I & <-). apply (keyed_in _ _ _ K') in G. exact (A e _ w f s Q G I eq_refl).
    + intros n [w G]. apply (keyed_in _ _ _ K) in G. destruct (F _ _ G) as (f & s & I & [= ->] & _). apply declared_iff. now exists f, s.
Qed.

Lemma child_ok s : In s (children sc) -> forall v t w t', cv_validate (eval E (refs E defs fuel 0) s) (IPy v) t = (VOk w, t') -> conforms E defs false s w.
Proof.
  intros J v t w t' H. destruct W as [W1 W2]. inversion_clear W1 as [? _ WC].
  pose proof (run_ok E defs false W2 fuel s (WC s J) (IPy v) t I) as K. unfold run in K. now rewrite H in K.
Qed.
Lemma alive_attr m : alive m -> forall n v, attr m n = Some v ->
  (In (PStr n, v) (mi_dict m) /\ exists f s, In (f, s) fields /\ fi_name f = n /\ conforms E defs false s v) \/
  (fo_extra c = ExtraAllow /\ ~ declared cf n /\ exists e, mi_extra m = PDict e /\ In (PStr n, v) e /\ forall s, ex = Some s -> conforms E defs false s v).
Proof.
  intros AL n v G. pose proof (alive_instance m AL) as (_ & _ & HI). destruct (alive_parts m AL) as (fs & S & K & F & R & N & X & T).
  unfold attr in G. destruct (dict_get (PStr n) (mi_dict m)) as [w|] eqn:Q.
  - injection G as ->. apply (keyed_in _ _ _ K) in Q. left. split; [exact Q|]. destruct (F _ _ Q) as (f & s & I & [= ->] & C). now exists f, s.
  - right. destruct (mi_extra m) as [| | | | | | | | | |e| | ] eqn:Y; try discriminate G.
    assert (B : fo_extra c = ExtraAllow) by (destruct (fo_extra c); [reflexivity| |]; exfalso; (cut (PDict e = PNone); [discriminate|apply N; discriminate])).
    split; [exact B|]. destruct (X B) as (e' & [= <-] & K' & C). apply (keyed_in _ _ _ K') in G.
    cbn [cf fields_of mk_fields fc_extra] in HI. rewrite B in HI. destruct HI as (e' & [= <-] & _ & D & _).
    split; [apply D; exists v; apply (keyed_in _ _ _ K'); exact G|]. exists e. split; [reflexivity|]. split; [exact G|]. exact (C _ _ G).
Qed.

Lemma assign_alive m n value t m' t' : alive m -> assign E defs fuel c fields ex None m n value t = (VOk tt, m', t') -> alive m'.
Proof.
  intros AL H. pose proof (alive_instance m AL) as HI. pose proof (alive_attr m AL) as AT. destruct (alive_parts m AL) as (fs & S & K & F & R & N & X & T).
  destruct (C40_model_update cf _ m n value t m' t' HI H) as (w & A & G & SET & HI').
  (* the assigned value *)
  assert (NEW : (exists f s, In (f, s) fields /\ fi_name f = n /\ conforms E defs false s w) \/ (~ declared cf n /\ fo_extra c = ExtraAllow /\ forall s, ex = Some s -> conforms E defs false s w)).
  { destruct A as [g u u' w J Q _ _ _ V|v u u' w D B V _ P|D B V].
    - left. cbn in J. apply in_map_iff in J. destruct J as ([f s] & <- & J). cbn [mk_field f_cv f_name fst snd] in *. exists f, s. split; [exact J|]. split; [exact Q|].
      apply (child_ok s) with (v := value) (t := u) (t' := u'); [|exact V]. cbn. apply in_or_app. left. apply in_map_iff. now exists (f, s).
    - right. split; [exact D|]. split; [exact B|]. intros s Qx. cbn in V. rewrite Qx in V. injection V as <-.
      apply (child_ok s) with (v := value) (t := u) (t' := u'); [|exact P]. cbn. apply in_or_app. right. rewrite Qx. now left.
    - right. split; [exact D|]. split; [exact B|]. intros s Qx. cbn in V. rewrite Qx in V. discriminate V. }
  (* every attribute afterwards *)
  assert (ALL : forall k v, attr m' k = Some v -> (exists f s, In (f, s) fields /\ fi_name f = k /\ conforms E defs false s v) \/ (~ declared cf k /\ fo_extra c = ExtraAllow /\ forall s, ex = Some s -> conforms E defs false s v)).
  { intros k v Q. rewrite G in Q. destruct (str_eqb k n) eqn:B; [apply str_eqb_eq in B; subst k; injection Q as ->; exact NEW|].
    destruct (AT k v Q) as [[_ Y]|(B1 & B2 & e & _ & _ & Y)]; [left; exact Y|right; auto]. }
  destruct HI' as (K' & (l & S' & LS) & HX). cbn [cf fields_of mk_fields fc_extra] in HX.
  assert (IND : forall k v, In (k, v) (mi_dict m') -> exists f s, In (f, s) fields /\ k = PStr (fi_name f) /\ conforms E defs false s v).
  { intros k v J. destruct (proj1 K' k v J) as [q ->]. pose proof J as J'. apply (keyed_in _ _ _ K') in J.
    assert (Q : attr m' q = Some v) by (unfold attr; now rewrite J).
    destruct (ALL q v Q) as [(f & s & Y1 & <- & Y2)|(D & B & _)]; [now exists f, s|]. exfalso. rewrite B in HX. destruct HX as (e & _ & _ & _ & HD). apply D. apply HD. exists v. exact J. }
  assert (INE : forall e, mi_extra m' = PDict e -> fo_extra c = ExtraAllow /\ keyed e /\ (forall k, has_key k e -> ~ declared cf k)).
  { intros e Q. destruct (fo_extra c); try congruence. destruct HX as (e' & Q' & K2 & D & _). rewrite Q in Q'. injection Q' as <-. auto. }
  assert (HAS : forall k, attr m k <> None -> attr m' k <> None).
  { intros k Y. rewrite G. destruct (str_eqb k n); [discriminate|exact Y]. }
  assert (WHERE : forall k, attr m' k <> None -> In (PStr k) (map fst (mi_dict m')) \/ exists e, mi_extra m' = PDict e /\ In (PStr k) (map fst e)).
  { intros k Y. unfold attr in Y. destruct (dict_get (PStr k) (mi_dict m')) as [v|] eqn:Q.
    - left. apply (keyed_in _ _ _ K') in Q. apply in_map_iff. now exists (PStr k, v).
    - right. destruct (mi_extra m') as [| | | | | | | | | |e| | ] eqn:Q2; try contradiction. exists e. split; [reflexivity|].
      destruct (INE e eq_refl) as (_ & K2 & _). destruct (dict_get (PStr k) e) as [v|] eqn:Q3; [|contradiction]. apply (keyed_in _ _ _ K2) in Q3. apply in_map_iff. now exists (PStr k, v). }
  assert (IN_ATTR : forall d0 k, keyed d0 -> In (PStr k) (map fst d0) -> exists v, dict_get (PStr k) d0 = Some v).
  { intros d0 k K0 J. apply in_map_iff in J. destruct J as ([k0 v0] & Q & J). cbn in Q. subst k0. exists v0. now apply (keyed_in _ _ _ K0). }
  exists (PTuple [PDict (mi_dict m'); mi_extra m'; PSet l]). split; [unfold contents; now rewrite S'|]. split.
  - apply CfModelFields.
    + exact (keyed_distinct _ K').
    + exact IND.
    + intros f s J. destruct (R f s J) as [Y|Y]; [left|right; exact Y]. destruct (IN_ATTR _ _ K Y) as [v Q].
      destruct (WHERE (fi_name f)) as [Z|(e & Z1 & Z2)]; [apply HAS; unfold attr; rewrite Q; discriminate|exact Z|].
      exfalso. destruct (INE e Z1) as (_ & K2 & D). apply (D (fi_name f)); [destruct (IN_ATTR _ _ K2 Z2) as [v' Q']; now exists v'|]. apply declared_iff. now exists f, s.
    + intros B. destruct (fo_extra c); try congruence; exact HX.
    + intros B. rewrite B in HX. destruct HX as (e & Q & K2 & D & _). exists e. split; [exact Q|]. split; [exact (keyed_distinct _ K2)|].
      intros k v J. destruct (proj1 K2 k v J) as [q ->]. exists q. split; [reflexivity|]. split; [|intros ? ?; discriminate].
      pose proof J as J'. apply (keyed_in _ _ _ K2) in J'. assert (D' : ~ declared cf q) by (apply D; now exists v).
      assert (QA : attr m' q = Some v).
      { unfold attr. destruct (dict_get (PStr q) (mi_dict m')) as [v'|] eqn:Q1; [|now rewrite Q].
        exfalso. apply (keyed_in _ _ _ K') in Q1. destruct (IND _ _ Q1) as (f & s & Y & [= ->] & _). apply D', declared_iff. now exists f, s. }
      destruct (ALL q v QA) as [(f & s & Y1 & Y2 & _)|(_ & _ & Y)]; [|exact Y]. exfalso. apply D', declared_iff. now exists f, s.
    + intros y J. destruct (LS y J) as [q ->]. apply WHERE. assert (IS : is_set m' q) by (exists l; auto). apply SET in IS.
      destruct IS as [IS| ->]; [|rewrite G, str_eqb_refl; discriminate]. apply HAS. destruct IS as (l0 & Q & J0). rewrite S in Q. injection Q as <-.
      destruct (T _ J0) as [Y|(e & Y1 & Y2)].
      * destruct (IN_ATTR _ _ K Y) as [v Q]. unfold attr. rewrite Q. discriminate.
      * unfold attr. destruct (dict_get _ (mi_dict m)); [discriminate|]. rewrite Y1.
        destruct (extra_behavior_eqb (fo_extra c) ExtraAllow) eqn:B.
        -- destruct X as (e' & Q' & K2 & _); [destruct (fo_extra c); try discriminate B; reflexivity|]. rewrite Y1 in Q'. injection Q' as <-. destruct (IN_ATTR _ _ K2 Y2) as [v ->]. discriminate.
        -- rewrite N in Y1; [discriminate|]. intros Q2. rewrite Q2 in B. discriminate B.
  - intros e q v f s Q J I0 <-. destruct (INE e Q) as (_ & K2 & D). apply (D (fi_name f)); [exists v; now apply (keyed_in _ _ _ K2)|]. apply declared_iff. now exists f, s.
Qed.

Lemma attempts_alive ops : forall m m' ns, alive m -> attempts (assign E defs fuel c fields ex None) ops m = (m', ns) -> alive m'.
Proof.
  induction ops as [|[[n v] t] ops IH]; intros m m' ns AL H; cbn [attempts] in H; [injection H as <- _; exact AL|].
  destruct (assign E defs fuel c fields ex None m n v t) as [[[[]|e] m1] t1] eqn:Q.
  - destruct (attempts _ ops m1) as [m2 ns2] eqn:Q2. injection H as <- _. apply (IH m1 m2 ns2); [|exact Q2]. exact (assign_alive _ _ _ _ _ _ AL Q).
  - unfold assign in Q. apply C40_failed_unchanged in Q. subst m1. exact (IH m m' ns AL H).
Qed.
End Step.

(** Any instance made by a validation, after any series of attempted assignments with any
    values and states: what it holds conforms to the schema of its fields, and the
    instance to the schema of the model. *)
Theorem C97_stays_valid : forall E defs c fields ex fuel i s v s' m fuel' ops m' ns,
  holds_of proper defs (SModelFields c fields ex None) -> from_strings i = false ->
  run E defs fuel (SModelFields c fields ex None) i s = (VOk v, s') -> born v = Some m -> apart fields m ->
  attempts (assign E defs fuel' c fields ex None) ops m = (m', ns) ->
  exists w, contents m' = Some w /\ conforms E defs false (SModelFields c fields ex None) w /\
    forall cm fs, mo_root cm = false -> mo_post_init cm = None ->
      conforms E defs false (SModel cm (SModelFields c fields ex None)) (model_inst (mo_cls cm) (PDict (mi_dict m')) (mi_extra m') fs).
Proof.
  intros E defs c fields ex fuel i s v s' m fuel' ops m' ns W NS H B A T.
  assert (AL : alive E defs c fields ex m).
  { exists v. split; [|split; [|exact A]].
    - destruct v as [| | | | | | |[|[] [|x [|fs []]]]| | | | |]; try discriminate B. now injection B as <-.
    - rewrite <- NS. exact (C29_result_conforms E defs fuel _ i s v s' W H). }
  destruct (attempts_alive E defs c fields ex fuel' W ops m m' ns AL T) as (w & C & F & _). exists w. split; [exact C|]. split; [exact F|].
  intros cm fs R P. unfold contents in C. destruct (mi_set m') as [fs'|] eqn:Q; [|discriminate]. injection C as <-.
  apply (CfModelBuilt E defs false cm _ (PDict (mi_dict m')) (mi_extra m') fs' fs); [exact R|exact F|]. unfold after_init. now rewrite P.
Qed.
Print Assumptions C97_stays_valid.

(** The condition on the names of additional attributes is needed only with
    extra="allow". *)
Theorem C97_apart_without_extras : forall E defs c fields ex exk fuel i s v s' m, fo_extra c <> ExtraAllow ->
  run E defs fuel (SModelFields c fields ex exk) i s = (VOk v, s') -> born v = Some m -> apart fields m.
Proof.
  intros E defs c fields ex exk fuel i s v s' m X H B. unfold run in H. cbn [eval no_default cv_validate] in H. unfold model_fields_validate in H. cbv zeta in H. cbn [mk_fields fc_extra] in H.
  intros e n w f sc Q. exfalso.
  repeat match type of H with
  | (match ?x with _ => _ end) = _ => destruct x eqn:?; try discriminate H
  | (if ?x then _ else _) = _ => destruct x eqn:?; try discriminate H
  end; injection H as <- _; cbn [born] in B; injection B as <-; cbn [mi_extra] in Q; destruct (fo_extra c); congruence.
Qed.
Print Assumptions C97_apart_without_extras.

(** With extra="allow" it is met when the fields are found by their own names. *)
Definition unaliased (f : finfo) : Prop :=
  kc_by_name (fi_keys f) = Simple (path_from_str (fi_name f)) /\ kc_by_alias (fi_keys f) = None /\ kc_by_alias_then_name (fi_keys f) = None.
Lemma fields_used c md i ba bn : forall fs a s a' s', fields_loop c md i ba bn fs a s = (VOk a', s') -> forall k, In k (fa_used a) -> In k (fa_used a').
Proof.
  induction fs as [|f fs IH]; intros a s a' s' H k K; cbn [fields_loop] in H; [injection H as <- _; exact K|]. cbv zeta in H.
  repeat match type of H with (match ?x with _ => _ end) = _ => destruct x eqn:?; try discriminate H end;
    (apply (IH _ _ _ _ H k); cbn [fa_put fa_mark fa_use fa_add_errors fa_used]; first [exact K|right; exact K]).
Qed.
Lemma field_used c md i ba bn : forall fs a s a' s' f x, fields_loop c md i ba bn fs a s = (VOk a', s') -> In f fs ->
  (forall key, collection_select (f_keys f) ba bn = BOk key -> key = Simple (path_from_str (f_name f))) ->
  md_get md (Simple (path_from_str (f_name f))) = VOk (Some (path_from_str (f_name f), x)) -> In (f_name f) (fa_used a').
Proof.
  induction fs as [|g fs IH]; intros a s a' s' f x H J S G; [contradiction|]. destruct J as [->|J].
  - cbn [fields_loop] in H. cbv zeta in H. destruct (collection_select (f_keys f) ba bn) as [key|] eqn:Q; [|discriminate H].
    rewrite (S key eq_refl), G in H.
    repeat match type of H with (match ?x with _ => _ end) = _ => destruct x eqn:?; try discriminate H end;
      (apply (fields_used _ _ _ _ _ _ _ _ _ _ H); cbn [fa_put fa_mark fa_use fa_add_errors fa_used path_from_str lp_first]; now left).
  - cbn [fields_loop] in H. cbv zeta in H.
    repeat match type of H with (match ?x with _ => _ end) = _ => destruct x eqn:?; try discriminate H end; exact (IH _ _ _ _ f x H J S G).
Qed.
Lemma extras_names c used : fc_extras_keys c = None -> forall es out errors fset s out' errors' fset' s',
  extras_loop c used es out errors fset s = (VOk (out', errors', fset'), s') ->
  forall n v, In (PStr n, v) out' -> (exists w, In (PStr n, w) out) \/ exists k kl x, In (Entry k kl x) es /\ key_str k = VOk n /\ mem_str n used = false.
Proof.
  intros XK. induction es as [|[key kl x|e] es IH]; intros out errors fset s out' errors' fset' s' H n v J; cbn [extras_loop] in H; [injection H as <- _ _ _; left; eauto| |discriminate H].
  assert (GO : forall out1 errors1 fset1 s1, extras_loop c used es out1 errors1 fset1 s1 = (VOk (out', errors', fset'), s') ->
    (forall w, In (PStr n, w) out1 -> (exists w, In (PStr n, w) out) \/ key_str key = VOk n /\ mem_str n used = false) ->
    (exists w, In (PStr n, w) out) \/ exists k kl' x', In (Entry k kl' x') (Entry key kl x :: es) /\ key_str k = VOk n /\ mem_str n used = false).
  { intros out1 errors1 fset1 s1 H1 O1. destruct (IH _ _ _ _ _ _ _ _ H1 n v J) as [[w Y]|(k & kl' & x' & Y1 & Y2)].
    - destruct (O1 w Y) as [Y'|[Y1 Y2]]; [now left|]. right. exists key, kl, x. split; [now left|]. auto.
    - right. exists k, kl', x'. split; [now right|exact Y2]. }
  destruct (key_str key) as [k|e] eqn:Q; [|destruct e; try discriminate H; apply (GO _ _ _ _ H); eauto].
  destruct (mem_str k used) eqn:M; [apply (GO _ _ _ _ H); eauto|].
  assert (PUT : forall y w, In (PStr n, w) (dict_set (PStr k) y out) -> (exists w, In (PStr n, w) out) \/ VOk k = VOk n /\ mem_str n used = false).
  { intros y w Y. assert (Z : In (PStr n) (map fst (dict_set (PStr k) y out))) by (apply in_map_iff; now exists (PStr n, w)).
    destruct (CollectionsProofs.dict_set_keys (PStr k) y out) as [R|R]; rewrite R in Z.
    - left. apply in_map_iff in Z. destruct Z as ([a b] & R2 & Z). cbn in R2. subst a. now exists b.
    - apply in_app_or in Z. destruct Z as [Z|[Z|[]]]; [left; apply in_map_iff in Z; destruct Z as ([a b] & R2 & Z); cbn in R2; subst a; now exists b|].
      right. injection Z as ->. auto. }
  destruct (fc_extra c); [|apply (GO _ _ _ _ H); eauto|apply (GO _ _ _ _ H); eauto].
  rewrite XK in H. cbv zeta in H. destruct (fc_extras c) as [vx|]; [|apply (GO _ _ _ _ H); eauto].
  destruct (vx x s) as [[y|e] s1]; [apply (GO _ _ _ _ H); eauto|]. destruct e; try discriminate H. apply (GO _ _ _ _ H); eauto.
Qed.
Theorem C97_apart_without_aliases : forall E defs c fields ex fuel i s v s' m,
  (forall f sc, In (f, sc) fields -> unaliased f) -> from_strings i = false ->
  run E defs fuel (SModelFields c fields ex None) i s = (VOk v, s') -> born v = Some m -> apart fields m.
Proof.
  intros E defs c fields ex fuel i s v s' m U NS H B. unfold run in H. cbn [eval no_default cv_validate] in H. unfold model_fields_validate in H. cbv zeta in H.
  destruct (validate_model_fields _ _ _ _ i) as [md|e] eqn:MD; [|destruct e; discriminate H].
  assert (OK : md_ok false md) by (apply (validate_mf_ok false) in MD; [exact MD|destruct i; first [exact I|discriminate NS]]).
  unfold rebind in H. destruct (fields_loop _ _ _ _ _ _ _ _) as [[a|e] s1] eqn:L; [|discriminate H].
  intros e n w f sc Q J IN EQ.
  assert (NM : md_is_attr md = false -> forall k kl x es, md_iter md = VOk es -> In (Entry k kl x) es -> key_str k = VOk n -> mem_str n (fa_used a) = false -> False).
  { intros AT k kl x es IT Y KS M. destruct (mo_found _ _ OK eq_refl AT es k kl x n IT Y KS) as [y G]. subst n. destruct (U f sc IN) as (U1 & U2 & U3).
    assert (X : In (fi_name f) (fa_used a)).
    { apply (field_used _ _ _ _ _ _ _ _ _ _ (mk_field f (eval E (refs E defs fuel 0) sc)) y L).
      - cbn [mk_fields fc_fields]. apply in_map_iff. now exists (f, sc).
      - cbn [mk_field f_keys f_name]. intros key. unfold collection_select. rewrite U1, U2, U3. destruct (validate_by_alias_or _ _), (validate_by_name_or _ _); cbn [unwrap_or]; intros R; congruence.
      - exact G. }
    apply mem_str_In in X. congruence. }
  cbn [mk_fields fc_extra] in H. destruct (extra_behavior_eqb (fo_extra c) ExtraIgnore || md_is_attr md) eqn:B1.
  - destruct (is_nil (fa_errors a)); [|discriminate H]. injection H as <- _. cbn [born] in B. injection B as <-. cbn [mi_extra] in Q. destruct (fo_extra c); try discriminate Q. injection Q as <-. cbn in J. contradiction.
  - apply orb_false_iff in B1. destruct B1 as [_ AT]. destruct (md_iter md) as [es|] eqn:IT; [|discriminate H].
    destruct (extras_loop _ _ _ _ _ _ _) as [[[[out errors] fset]|] s2] eqn:X; [|discriminate H]. destruct (is_nil errors); [|discriminate H].
    injection H as <- _. cbn [born] in B. injection B as <-. cbn [mi_extra] in Q. destruct (fo_extra c); try discriminate Q. injection Q as <-. cbn [unwrap_or] in J.
    eapply extras_names in X; [|reflexivity|exact J]. destruct X as [[? []]|(k & kl & x & Y1 & Y2 & Y3)]. exact (NM AT k kl x es eq_refl Y1 Y2 Y3).
Qed.
Print Assumptions C97_apart_without_aliases.

(** The same for root models: the root value. *)
Theorem C97_root : forall E defs sc fuel inner ops m m' ns v,
  holds_of proper defs sc -> keyed (mi_dict m) -> attr m root_name = Some v -> mi_extra m = PNone -> conforms E defs false sc v ->
  attempts (model_assign false true (run E defs fuel sc) inner) ops m = (m', ns) ->
  exists w, attr m' root_name = Some w /\ conforms E defs false sc w.
Proof.
  intros E defs sc fuel inner ops m m' ns v W. revert m m' ns v. induction ops as [|[[n u] t] ops IH]; intros m m' ns v K A X C H; cbn [attempts] in H; [injection H as <- _; eauto|].
  destruct (model_assign false true (run E defs fuel sc) inner m n u t) as [[[[]|e] m1] t1] eqn:Q.
  - destruct (attempts _ ops m1) as [m2 ns2] eqn:Q2. injection H as <- _. unfold model_assign in Q.
    destruct (negb (str_eqb n root_name)); [discriminate Q|]. unfold rebind in Q.
    destruct (run E defs fuel sc (IPy u) _) as [[w|e] t2] eqn:R; [|discriminate Q]. injection Q as <- _.
    apply (IH _ m2 ns2 w) in Q2; [exact Q2|cbn; now apply keyed_set| |exact X|].
    + unfold attr. cbn [mi_dict]. rewrite dict_get_set by exact K. now rewrite str_eqb_refl.
    + exact (C29_result_conforms E defs fuel sc (IPy u) _ w t2 W R).
  - apply C40_failed_unchanged in Q. subst m1. exact (IH m m' ns v K A X C H).
Qed.
Print Assumptions C97_root.

(** Dataclasses: every field that has a value has one that conforms. *)
Definition dataclass_fields (E : env) (defs : nat -> option schema) (fuel : nat) (c : dinfos) (fields : list (dinfo * schema)) (frozen : dinfo -> bool) : fields_cfg :=
  {| fc_fields := map (fun fi => {| f_name := dn_name (fst fi); f_keys := dn_keys (fst fi); f_cv := eval E (refs E defs fuel 0) (snd fi); f_frozen := frozen (fst fi); f_required := true |}) fields;
     fc_extra := do_extra c; fc_extras := None; fc_extras_keys := None; fc_strict := false; fc_from_attributes := false; fc_loc_by_alias := true; fc_by_alias := None; fc_by_name := None |}.
Theorem C97_dataclass : forall E defs c fields ex fuel frozen (slots : bool) names class_attr ops o o' ns,
  holds_of proper defs (SDataclassArgs c fields ex) -> NoDup (map (fun fi => dn_name (fst fi)) fields) ->
  (forall f sc, In (f, sc) fields -> In (dn_name f) names) -> keyed (di_attrs o) ->
  (forall f sc v, In (f, sc) fields -> dc_getattr class_attr o (dn_name f) = Some v -> conforms E defs false sc v) ->
  attempts (dataclass_assign false slots names class_attr (dataclass_args_assign (dataclass_fields E defs fuel c fields frozen))) ops o = (o', ns) ->
  forall f sc v, In (f, sc) fields -> dc_getattr class_attr o' (dn_name f) = Some v -> conforms E defs false sc v.
Proof.
  intros E defs c fields ex fuel frozen slots names ca ops o o' ns [W D] ND SUB. revert o o' ns.
  induction ops as [|[[n u] t] ops IH]; intros o o' ns K C H; cbn [attempts] in H; [injection H as <- _; exact C|].
  destruct (dataclass_assign _ _ _ _ _ o n u t) as [[[[]|e] o1] t1] eqn:Q.
  - destruct (attempts _ ops o1) as [o2 ns2] eqn:Q2. injection H as <- _.
    destruct (C40_dataclass_update slots names ca _ o n u t o1 t1 K Q) as (w & A & G & O & K1).
    apply (IH o1 o2 ns2 K1); [|exact Q2]. intros f sc v J V. destruct (str_eqb (dn_name f) n) eqn:B.
    + apply str_eqb_eq in B. rewrite B, G in V. injection V as ->.
      assert (J2 : In {| f_name := dn_name f; f_keys := dn_keys f; f_cv := eval E (refs E defs fuel 0) sc; f_frozen := frozen f; f_required := true |} (fc_fields (dataclass_fields E defs fuel c fields frozen))).
      { cbn. apply in_map_iff. now exists (f, sc). }
      destruct A as [g t2 t2' w d J1 E1 _ _ _ _ V1|N1 _].
      * cbn in J1. apply in_map_iff in J1. destruct J1 as ([f1 sc1] & <- & J1). cbn in E1, V1.
        assert (S : sc1 = sc).
        { rewrite <- B in E1. clear -ND J J1 E1. induction fields as [|[f0 s0] l IH]; [contradiction|]. cbn in ND. inversion_clear ND as [|? ? X ND'].
          destruct J as [[= -> ->]|J], J1 as [[= -> ->]|J1]; [reflexivity| | |auto].
          - exfalso. apply X. apply in_map_iff. now exists (f1, sc1).
          - exfalso. apply X. apply in_map_iff. exists (f, sc). split; [cbn; congruence|exact J]. }
        subst sc1. inversion_clear W as [? _ WC].
        assert (WS : everywhere proper sc) by (apply WC; cbn; apply in_or_app; left; apply in_map_iff; now exists (f, sc)).
        pose proof (run_ok E defs false D fuel sc WS (IPy u) t2 I) as R. unfold run in R. now rewrite V1 in R.
      * exfalso. apply N1. eexists. split; [exact J2|exact B].
    + rewrite O in V; [exact (C f sc v J V)|intros X; rewrite X, str_eqb_refl in B; discriminate|right; exact (SUB f sc J)].
  - apply C40_dataclass_failed in Q. subst o1. exact (IH o o' ns K C H).
Qed.
Print Assumptions C97_dataclass.

(** ** What does not hold *)
Definition life_keys (name alias : str) : key_collection :=
  {| kc_by_name := Simple (path_from_str name); kc_by_alias := Some (Simple (path_from_str alias)); kc_by_alias_then_name := None |}.
Definition life_fields : list (finfo * schema) :=
  [({| fi_name := lit "a"; fi_keys := life_keys (lit "a") (lit "b"); fi_frozen := false; fi_required := true |}, xint); xfield (lit "c") true xint].
Definition life_defs : nat -> option schema := fun _ => None.
Definition life_state : state := call_state ITPython ex_opts.

(** With extra="allow" an additional item may have the name of an aliased field.  The next
    assignment, to any other attribute, puts its unvalidated value into that field. *)
Theorem C97_alias_extra_refuted : exists v s' m m' s'',
  run ex_env life_defs 0 (SModelFields (xinfos ExtraAllow) life_fields None None) (IPy (PDict [(PStr (lit "b"), PInt 1); (PStr (lit "a"), PStr (lit "x")); (PStr (lit "c"), PInt 2)])) life_state = (VOk v, s') /\
  born v = Some m /\ dict_get (PStr (lit "a")) (mi_dict m) = Some (PInt 1) /\
  assign ex_env life_defs 0 (xinfos ExtraAllow) life_fields None None m (lit "c") (PInt 3) life_state = (VOk tt, m', s'') /\
  dict_get (PStr (lit "a")) (mi_dict m') = Some (PStr (lit "x")) /\
  isinstance_python ex_env life_defs 0 xint (PStr (lit "x")) ex_opts = No.
Proof.
  do 5 eexists. split; [vm_compute; reflexivity|]. split; [vm_compute; reflexivity|]. split; [reflexivity|]. split; [vm_compute; reflexivity|]. split; vm_compute; reflexivity.
Qed.
Print Assumptions C97_alias_extra_refuted.

(** Assignment does not ask the schema for the names of additional attributes. *)
Definition life_short : schema := SStr {| sc_strict := false; sc_coerce_numbers := false; sc_strip := false; sc_min := None; sc_max := Some 1; sc_pattern := None; sc_to_lower := false; sc_to_upper := false |}.
Theorem C97_extra_names_refuted : exists v s' m m' s'' e s3,
  run ex_env life_defs 0 (SModelFields (xinfos ExtraAllow) [] None (Some life_short)) (IPy (PDict [])) life_state = (VOk v, s') /\ born v = Some m /\
  assign ex_env life_defs 0 (xinfos ExtraAllow) [] None (Some life_short) m (lit "long") (PInt 3) life_state = (VOk tt, m', s'') /\
  attr m' (lit "long") = Some (PInt 3) /\
  run ex_env life_defs 0 (SModelFields (xinfos ExtraAllow) [] None (Some life_short)) (IPy (PDict [(PStr (lit "long"), PInt 3)])) life_state = (VErr (LineErrors [e]), s3).
Proof.
  do 7 eexists. split; [vm_compute; reflexivity|]. split; [vm_compute; reflexivity|]. split; [vm_compute; reflexivity|]. split; [reflexivity|]. vm_compute. reflexivity.
Qed.
Print Assumptions C97_extra_names_refuted.

(** ** Example: extras and two assignments, one of them refused *)
Example C97_ex : exists v s' m,
  holds_of proper life_defs (SModelFields (xinfos ExtraAllow) life_fields (Some xint) None) /\
  run ex_env life_defs 0 (SModelFields (xinfos ExtraAllow) life_fields (Some xint) None) (IPy (PDict [(PStr (lit "b"), PInt 1); (PStr (lit "z"), PStr (lit "7")); (PStr (lit "c"), PInt 2)])) life_state = (VOk v, s') /\
  born v = Some m /\ apart life_fields m /\
  exists m', attempts (assign ex_env life_defs 0 (xinfos ExtraAllow) life_fields (Some xint) None) [(lit "c", PStr (lit "x"), life_state); (lit "y", PStr (lit "5"), life_state); (lit "a", PInt 4, life_state)] m = (m', [lit "y"; lit "a"]) /\
    attr m' (lit "a") = Some (PInt 4) /\ attr m' (lit "c") = Some (PInt 2) /\ attr m' (lit "y") = Some (PInt 5) /\ attr m' (lit "z") = Some (PInt 7).
Proof.
  do 3 eexists. split; [|split; [vm_compute; reflexivity|split; [vm_compute; reflexivity|split]]].
  - split; [|discriminate]. constructor; [exact I|]. cbn. intros x J. constructor; [|intros y Y]; repeat (destruct J as [<-|J]; [try exact I; try contradiction|]); contradiction.
  - intros e n w f sc Q J L. cbn in Q. injection Q as <-. destruct J as [J|[]]. injection J as <- _. destruct L as [[= <- _]|[[= <- _]|[]]]; discriminate.
  - eexists. split; [vm_compute; reflexivity|]. repeat split; vm_compute; reflexivity.
Qed.

Definition life_dinfo (n : str) : dinfo := {| dn_name := n; dn_keys := xkeys n; dn_kw_only := false; dn_init := true; dn_init_only := false |}.
Example C97_dataclass_ex : exists o',
  attempts (dataclass_assign false false [lit "a"; lit "c"] (fun _ => None)
      (dataclass_args_assign (dataclass_fields ex_env life_defs 0 {| do_collect := false; do_extra := ExtraIgnore; do_loc_by_alias := true; do_by_alias := None; do_by_name := None |} [(life_dinfo (lit "a"), xint); (life_dinfo (lit "c"), xstr)] (fun _ => false))))
    [(lit "a", PStr (lit "5"), life_state); (lit "c", PInt 1, life_state)] {| di_attrs := [(PStr (lit "a"), PInt 1); (PStr (lit "c"), PStr (lit "-"))] |} = (o', [lit "a"]) /\
  dc_getattr (fun _ => None) o' (lit "a") = Some (PInt 5) /\ dc_getattr (fun _ => None) o' (lit "c") = Some (PStr (lit "-")).
Proof. eexists. split; [vm_compute; reflexivity|]. split; vm_compute; reflexivity. Qed.
