From Coq Require Import List NArith ZArith Bool Lia.
From Verif Require Import Base Float64 IntParse Numbers BytesCodec Values VState LookupKey Collections Child Inputs Scalars Literal Wrappers Union TaggedUnion Tuple ModelFields TypedDict Assign Arguments Classes Interp InterpSpec CollectionsProofs LookupKeyProofs ArgumentsProofs InterpProofs StableSpec LocateSpec LocateProofs LocateProofs2 LocateProofs3.
Import ListNotations.
Open Scope nat_scope.

Section Locate.
Variable E : env.
Variable label : loc_item -> Prop.
Notation step := (step E).
Notation leads := (leads E label).
Notation located := (located E label).
Notation errs := (errs E label).
Notation tracks := (tracks E label).
Notation ctracks := (ctracks E label).
Notation md_at := (md_at E label).

Lemma rebind_fst {A} f s (k : state -> A * state) : exists s', fst (rebind f s k) = fst (k s').
Proof. unfold rebind. eexists. destruct (k _) eqn:K. instantiate (1 := set_extra (f (st_extra s)) s). rewrite K. reflexivity. Qed.
Lemma rebind_errs {A} i f s (k : state -> vres A * state) : (forall s, errs i (fst (k s))) -> errs i (fst (rebind f s k)).
Proof. intros H. destruct (rebind_fst f s k) as [s' ->]. apply H. Qed.

Section Fields.
Variables (i : input) (md : mdict).
Hypothesis M : md_at i md.

(** What a lookup error becomes. *)
Lemma lookup_errs k e : md_get md k = VErr e -> exists l, e = LineErrors l /\ Forall (located i) l /\ forall n, Forall (located i) (map (with_outer n) l).
Proof.
  intros H. destruct (ma_err _ _ _ _ M _ _ H) as (o & r & w & n & x & -> & O & A & R). eexists. split; [reflexivity|].
  split; [|intros l]; (constructor; [|constructor]).
  - eapply loc_attribute with (p := []) (q := []); [reflexivity|reflexivity|auto|constructor|exact O|reflexivity|exact A|exact R].
  - eapply loc_attribute with (p := []) (q := [l]); [reflexivity|reflexivity|auto|constructor|exact O|reflexivity|exact A|exact R].
Qed.
Lemma applied k p x es n : good_key k -> md_get md k = VOk (Some (p, x)) -> Forall (located x) es -> Forall (located i) (map (fun e => apply_error_loc p e true n) es).
Proof.
  intros G H. apply located_map. intros e L. destruct (apply_loc p e n) as (P & T & I). eapply located_via; [exact (proj2 (ma_get _ _ _ _ M _ _ _ G H))|exact L|exact T|exact I|exact P].
Qed.
Lemma missing k t n : missing_type t = true -> good_key k -> md_get md k = VOk None -> exists e, key_error k t i true n = Some e /\ located i e.
Proof.
  intros T G H. destruct (key_error_loc k t i n G) as (p & e & F & K & P & TT & I). exists e. split; [exact K|].
  pose proof (ma_none _ _ _ _ M _ _ G F H) as A. eapply loc_missing with (p := []); [now rewrite TT|exact P|constructor|unfold shows; now rewrite I|exact A].
Qed.

Variable c : fields_cfg.
Hypothesis LA : fc_loc_by_alias c = true.
Definition field_at (f : field) : Prop := ctracks (f_cv f) /\ built (f_name f) (f_keys f).
Definition acc_ok (r : vres facc) : Prop := match r with VOk a => Forall (located i) (fa_errors a) | VErr e => errs i (@VErr unit e) end.

Lemma fields_at ba bn fs : Forall field_at fs -> forall a s, Forall (located i) (fa_errors a) -> acc_ok (fst (fields_loop c md i ba bn fs a s)).
Proof.
  intros X. induction X as [|f fs [T B] X IH]; intros a s F; cbn [fields_loop]; [exact F|]. cbv zeta. set (s0 := set_extra _ s). clearbody s0.
  destruct (collection_select _ _ _) as [k|] eqn:K; [|exact I]. pose proof (select_good _ _ _ _ _ B K) as G.
  destruct (md_get md k) as [[[p x]|]|e] eqn:H.
  - pose proof (ma_get _ _ _ _ M _ _ _ G H) as [P L]. 
    match goal with |- context [rebind ?a ?b ?d] => pose proof (rebind_errs x a b d) as R; destruct (rebind a b d) as [[v|e] s1] end; [now apply IH|].
    specialize (R (fun s => proj1 T x s P)). cbn in R. destruct e as [l| | | |]; try exact I; [|now apply IH]. apply IH. cbn. apply forall_add; [exact F|]. rewrite LA. eapply applied; eauto.
  - pose proof (proj2 T (Some (LStr (f_name f))) s0) as D. destruct (cv_default _ _ _) as [[[v|]|e] s1].
    + now apply IH.
    + rewrite LA. destruct (missing k EMissing (f_name f) eq_refl G H) as (e & -> & Le). apply IH. cbn. apply forall_snoc; assumption.
    + specialize (D _ eq_refl). destruct e as [l| | | |]; try exact I; [destruct D|now apply IH].
  - destruct (lookup_errs _ _ H) as (l & -> & _ & Q). apply IH. cbn. apply forall_add; [exact F|apply Q].
Qed.

Lemma key_str_err key e : key_str key = VErr e -> e = LineErrors [new_error EStringType key].
Proof. unfold key_str. destruct key as [v|j|k|v]; [destruct (as_str v)|destruct j| |destruct (as_str v)]; try discriminate; now intros [= <-]. Qed.
Lemma bad_key key kl : key_of E i kl key -> Forall (located i) (map (fun e => set_type EInvalidKey (with_outer kl e)) [new_error EStringType key]).
Proof. intros K. constructor; [|constructor]. eapply loc_key with (p := []); [reflexivity|reflexivity|constructor|exact K|reflexivity]. Qed.

Lemma extras_at used es : fc_extras_keys c = None -> (forall v, fc_extras c = Some v -> tracks v) -> Forall (entry_at E i) es ->
  forall out errors fset s, Forall (located i) errors ->
  match fst (extras_loop c used es out errors fset s) with VOk (_, errors', _) => Forall (located i) errors' | VErr e => errs i (@VErr unit e) end.
Proof.
  intros XK XV X. induction X as [|en es N X IH]; intros out errors fset s F; cbn [extras_loop]; [exact F|]. destruct en as [k kl v|]; [|destruct N]. destruct N as (PK & PV & KO & ST).
  destruct (key_str k) as [n|e] eqn:K.
  - destruct (mem_str n used); [now apply IH|]. destruct (fc_extra c); [|apply IH; apply forall_snoc; [exact F|now apply located_new_loc]|now apply IH].
    rewrite XK. cbv zeta. destruct (fc_extras c) as [w|] eqn:XE; [|now apply IH]. pose proof (XV _ eq_refl v s PV) as T. destruct (w v s) as [[u|e] s1]; [now apply IH|]. cbn in T.
    destruct e as [l| | | |]; try exact I. apply IH. apply forall_add; [exact F|]. eapply outer_all; eauto.
  - rewrite (key_str_err _ _ K). apply IH, forall_add; [exact F|]. now apply bad_key.
Qed.

Lemma td_at last p ba bn fs : Forall field_at fs -> forall a s, Forall (located i) (fa_errors a) -> acc_ok (fst (td_loop c md i last p ba bn fs a s)).
Proof.
  intros X. induction X as [|f fs [T B] X IH]; intros a s F; cbn [td_loop]; [exact F|]. cbv zeta. set (s0 := set_extra _ s). clearbody s0.
  destruct (collection_select _ _ _) as [k|] eqn:K; [|exact I]. pose proof (select_good _ _ _ _ _ B K) as G.
  destruct (md_get md k) as [[[q x]|]|e] eqn:H.
  - pose proof (ma_get _ _ _ _ M _ _ _ G H) as [P L]. 
    match goal with |- context [rebind ?a ?b ?d] => pose proof (rebind_errs x a b d) as R; destruct (rebind a b d) as [[v|e] s1] end; [now apply IH|].
    specialize (R (fun s => proj1 T x s P)). cbn in R. destruct e as [l| | | |]; try exact I; [|now apply IH]. apply IH. destruct (_ || _); [|exact F]. cbn. apply forall_add; [exact F|]. rewrite LA. eapply applied; eauto.
  - pose proof (proj2 T (Some (LStr (f_name f))) s0) as D. destruct (cv_default _ _ _) as [[[v|]|e] s1].
    + now apply IH.
    + destruct (f_required f); [|now apply IH]. rewrite LA. destruct (missing k EMissing (f_name f) eq_refl G H) as (e & -> & Le). apply IH. cbn. apply forall_snoc; assumption.
    + specialize (D _ eq_refl). destruct e as [l| | | |]; try exact I; [destruct D|now apply IH].
  - destruct (lookup_errs _ _ H) as (l & -> & _ & Q). apply IH. destruct (last_is _ _); [|exact F]. cbn. apply forall_add; [exact F|apply Q].
Qed.
Lemma td_extras_at used last p es : (forall v, fc_extras c = Some v -> tracks v) -> Forall (entry_at E i) es ->
  forall out errors s, Forall (located i) errors ->
  match fst (td_extras c used last p es out errors s) with VOk (_, errors') => Forall (located i) errors' | VErr e => errs i (@VErr unit e) end.
Proof.
  intros XV X. induction X as [|en es N X IH]; intros out errors s F; cbn [td_extras]; [exact F|]. destruct en as [k kl v|]; [|destruct N]. destruct N as (PK & PV & KO & ST).
  destruct (key_str k) as [n|e] eqn:K.
  - destruct (mem_str n used); [now apply IH|]. destruct (fc_extra c); [|apply IH; apply forall_snoc; [exact F|now apply located_new_loc]|now apply IH].
    cbv zeta. destruct (fc_extras c) as [w|] eqn:XE; [|now apply IH]. pose proof (XV _ eq_refl v (set_partial (if last_is last kl then p else PartialOff) s) PV) as T. destruct (w v _) as [[u|e] s1]; [now apply IH|]. cbn in T.
    destruct e as [l| | | |]; try exact I. apply IH. destruct (last_is last kl); [exact F|]. apply forall_add; [exact F|]. eapply outer_all; eauto.
  - rewrite (key_str_err _ _ K). apply IH, forall_add; [exact F|]. now apply bad_key.
Qed.
End Fields.

Lemma iter_entries i md es : md_at i md -> md_iter md = VOk es -> Forall (entry_at E i) es.
Proof. intros M H. exact (ma_iter _ _ _ _ M _ H). Qed.

Lemma model_fields_tracks c f : fc_loc_by_alias c = true -> fc_extras_keys c = None -> Forall field_at (fc_fields c) -> (forall v, fc_extras c = Some v -> tracks v) ->
  (forall b fa i, python_or_json i -> (forall md, f b fa i = VOk md -> md_at i md) /\ (forall e, f b fa i = VErr e -> exists t, e = LineErrors [new_error t i])) ->
  tracks (model_fields_validate c f).
Proof.
  intros LA XK X XV R i s P. unfold model_fields_validate. cbv zeta.
  match goal with |- context [f ?b ?fa i] => destruct (R b fa i P) as [R1 R2]; destruct (f b fa i) as [md|e] end.
  - specialize (R1 _ eq_refl). match goal with |- context [fields_loop c md i ?ba ?bn _ _] => set (fl := fields_loop c md i ba bn (fc_fields c) fa_init); assert (Q : forall s, acc_ok i (fst (fl s))) by (intros s'; apply fields_at; auto; constructor) end.
    match goal with |- context [rebind ?a ?b fl] => destruct (rebind_fst a b fl) as [s' Q']; destruct (rebind a b fl) as [r s1] end. cbn [fst] in Q'. specialize (Q s'). rewrite <- Q' in Q. destruct r as [a|e]; [|exact Q]. cbn in Q.
    assert (FI : forall d errors fset s', Forall (located i) errors -> errs i (fst (if is_nil errors then (VOk (PTuple [PDict (fa_dict a); match fc_extra c with ExtraAllow => PDict (unwrap_or d []) | _ => PNone end; PSet (name_set fset)]), add_fields_set (length (fa_set a)) s') else (VErr (LineErrors errors), s')))).
    { intros d errors fset s2 F. destruct (is_nil errors); [exact I|exact F]. }
    destruct (_ || _); [now apply FI|]. destruct (md_iter md) as [es|e] eqn:MI.
    + pose proof (extras_at i c (fa_used a) es XK XV (iter_entries _ _ _ R1 MI) [] (fa_errors a) (fa_set a) s1 Q) as W. destruct (extras_loop _ _ _ _ _ _ _) as [[[[out errors] fset]|e] s2]; [now apply FI|exact W].
    + destruct (ma_iter_ok _ _ _ _ R1) as [es ES]. congruence.
  - destruct (R2 _ eq_refl) as [t ->]. cbn. constructor; [|constructor]. destruct t; now apply located_new.
Qed.
Lemma typed_dict_tracks c f : fc_loc_by_alias c = true -> Forall field_at (fc_fields c) -> (forall v, fc_extras c = Some v -> tracks v) ->
  (forall b i, python_or_json i -> (forall md, f b i = VOk md -> md_at i md) /\ (forall e, f b i = VErr e -> exists t, e = LineErrors [new_error t i])) ->
  tracks (typed_dict_validate c f).
Proof.
  intros LA X XV R i s P. unfold typed_dict_validate. cbv zeta.
  match goal with |- context [f ?b i] => destruct (R b i P) as [R1 R2]; destruct (f b i) as [md|e] end.
  - specialize (R1 _ eq_refl). match goal with |- context [rebind _ _ ?k] => set (fl := k) end. assert (Q : forall s, acc_ok i (fst (fl s))).
    { intros s'. unfold fl. pose proof (td_at i md R1 c LA (if is_active (st_partial s) then md_last_key md else None) (st_partial s) (validate_by_alias_or s (fc_by_alias c)) (validate_by_name_or s (fc_by_name c)) (fc_fields c) X fa_init s' (Forall_nil _)) as Q. destruct (td_loop _ _ _ _ _ _ _ _ _ _) as [[a|e] s2]; exact Q. }
    match goal with |- context [rebind ?a ?b fl] => destruct (rebind_fst a b fl) as [s' Q']; destruct (rebind a b fl) as [r s1] end. cbn [fst] in Q'. specialize (Q s'). rewrite <- Q' in Q. destruct r as [a|e]; [|exact Q]. cbn in Q.
    assert (FI : forall d errors (s' : state), Forall (located i) errors -> errs i (fst (if is_nil errors then (VOk (PDict d), s') else (VErr (LineErrors errors), s')))).
    { intros d errors s2 F. destruct (is_nil errors); [exact I|exact F]. }
    destruct (_ || _); [now apply FI|]. destruct (md_iter md) as [es|e] eqn:MI.
    + match goal with |- context [td_extras c ?u ?l ?p es ?d ?er ?st] => pose proof (td_extras_at i c u l p es XV (iter_entries _ _ _ R1 MI) d er st Q) as W; destruct (td_extras c u l p es d er st) as [[[out errors]|e] s2] end; [now apply FI|exact W].
    + destruct (ma_iter_ok _ _ _ _ R1) as [es ES]. congruence.
  - destruct (R2 _ eq_refl) as [t ->]. cbn. constructor; [|constructor]. now apply located_new.
Qed.

Lemma mf_err b fa i e : validate_model_fields (e_repr E) (e_getattr E) b fa i = VErr e -> exists t, e = LineErrors [new_error t i].
Proof.
  assert (D : validate_dict (e_repr E) b i = VErr e -> exists t, e = LineErrors [new_error t i]).
  { unfold validate_dict. repeat brk; intros [= <-]; eauto. }
  unfold validate_model_fields. destruct i as [v|j|k|v]; auto. destruct fa; auto. repeat brk; try discriminate; intros [= <-]; eauto.
Qed.
End Locate.
