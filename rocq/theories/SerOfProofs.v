(** Valid values are what the serializer of the schema expects. *)
From Coq Require Import List NArith ZArith Bool Lia PeanoNat.
From Verif Require Import Base BytesCodec Values LookupKey Child Wrappers TaggedUnion ModelFields TypedDict Classes Interp InterpSpec ConformSpec.
From Verif Require SerBase Ser Assign.
From Verif Require Import SerOf SerOfSpec SerOfCalm.
Import ListNotations.

Lemma all_built_forall {A} (l : list (built A)) : forall r, all_built l = Built r -> Forall2 (fun m a => m = Built a) l r.
Proof.
  induction l as [|m l IH]; cbn [all_built]; intros r H; [injection H as <-; constructor|].
  destruct m as [a| |]; cbn in H; try discriminate. destruct (all_built l) as [r'| |]; cbn in H; try discriminate. injection H as <-. constructor; [reflexivity|now apply IH].
Qed.
Lemma forall2_map_l {A B C} (P : B -> C -> Prop) (g : A -> B) l : forall r, Forall2 P (map g l) r -> Forall2 (fun a c => P (g a) c) l r.
Proof. induction l as [|a l IH]; cbn; intros r H; inversion H; subst; constructor; auto. Qed.
Lemma forall2_len {A B} (P : A -> B -> Prop) l r : Forall2 P l r -> length l = length r.
Proof. induction 1; cbn; congruence. Qed.
Lemma forall2_app {A B} (P : A -> B -> Prop) l r l' r' : Forall2 P l r -> Forall2 P l' r' -> Forall2 P (l ++ l') (r ++ r').
Proof. induction 1; cbn; auto. Qed.
Lemma forall2_firstn {A B} (P : A -> B -> Prop) k : forall l r, Forall2 P l r -> Forall2 P (firstn k l) (firstn k r).
Proof. induction k; intros l r H; cbn; [constructor|]. destruct H; constructor; auto. Qed.
Lemma forall2_skipn {A B} (P : A -> B -> Prop) k : forall l r, Forall2 P l r -> Forall2 P (skipn k l) (skipn k r).
Proof. induction k; intros l r H; cbn; [exact H|]. destruct H; [constructor|auto]. Qed.
Lemma forall2_repeat {A B} (P : A -> B -> Prop) a b n : P a b -> Forall2 P (repeat a n) (repeat b n).
Proof. intros. induction n; cbn; constructor; auto. Qed.
Lemma forall2_nth {A B} (P : A -> B -> Prop) k : forall l r d, Forall2 P l r -> (k < length r)%nat -> exists a, nth_error l k = Some a /\ P a (nth k r d).
Proof.
  induction k as [|k IH]; intros l r d H L; destruct H as [|a b l r H1 H2]; cbn in *; try lia; [exists a; auto|]. apply IH; [exact H2|lia].
Qed.
Lemma forall2_combine {A B C} (P : C -> A -> Prop) (Q : C -> B -> Prop) cs : forall l r a b,
  Forall2 P cs l -> Forall2 Q cs r -> In (a, b) (combine l r) -> exists c, In c cs /\ P c a /\ Q c b.
Proof.
  induction cs as [|c cs IH]; intros l r a b H1 H2 I; inversion H1; subst; inversion H2; subst; cbn in I; [contradiction|].
  destruct I as [[= <- <-]|I]; [exists c; cbn; auto|]. edestruct IH as (c' & I' & G); eauto. exists c'. cbn. auto.
Qed.
Lemma somes_forall2 {A B} (slots : list (A * option B)) : (forall a, ~ In (a, None) slots) ->
  Forall2 (fun a b => In (a, Some b) slots) (map fst slots) (somes (map snd slots)).
Proof.
  induction slots as [|[a [b|]] slots IH]; intros H.
  - constructor.
  - change (Forall2 (fun a0 b0 => In (a0, Some b0) ((a, Some b) :: slots)) (a :: map fst slots) (b :: somes (map snd slots))).
    constructor; [now left|]. assert (G := IH (fun a I => H a (or_intror I))). revert G. generalize (map fst slots) (somes (map snd slots)).
    intros l r G. induction G; constructor; auto. now right.
  - exfalso. apply (H a). now left.
Qed.
Lemma nodup_assoc_in {A} (fs : list (str * A)) n a : assoc n fs = Some a -> In (n, a) fs.
Proof.
  induction fs as [|[k b] fs IH]; cbn [assoc]; [discriminate|]. destruct (str_eqb n k) eqn:Q.
  - intros [= <-]. apply str_eqb_eq in Q. subst. now left.
  - intros H. right. now apply IH.
Qed.
Lemma assoc_not_none {A} (fs : list (str * A)) n a : In (n, a) fs -> assoc n fs <> None.
Proof.
  induction fs as [|[k b] fs IH]; cbn [assoc In]; [contradiction|]. intros [[= <- <-]|I].
  - assert (Q : str_eqb k k = true) by now apply str_eqb_eq. now rewrite Q.
  - destruct (str_eqb n k); [discriminate|now apply IH].
Qed.

Section SerOfProofs.
Variable E : env.
Variable defs : nat -> option schema.
Variable strings : bool.
Variable w : written.
Variable open : bool.
Variable SE : SerBase.env.
Notation conforms := (conforms E defs strings).
Notation steady := (steady E defs strings w open).
Notation steady_fields := (steady_fields E defs strings w open).

Definition fits (v : pyval) : Prop := tidy v /\ (open = true -> built_in v).
Definition expected (s : SerBase.ser) (v : pyval) : Prop :=
  exists sc, steady sc /\ ser_of w sc = Built s /\ conforms sc v /\ fits v.
Notation suits := (suits SE expected).
Hypothesis Hdefs : forall k d, defs k = Some d -> steady d /\ exists s, ser_of w d = Built s /\ SerBase.e_def SE k = Some s.

Scheme steady_ind2 := Minimality for SerOfSpec.steady Sort Prop
  with steady_fields_ind2 := Minimality for SerOfSpec.steady_fields Sort Prop.

Lemma fields_found {I} (name : I -> str) (req : I -> bool) (fields : list (I * schema)) fs :
  all_built (map (fun f => field_of w (req (fst f)) (name (fst f)) (ser_of w (snd f))) fields) = Built fs ->
  (forall n f, In (n, f) fs -> exists i sc, In (i, sc) fields /\ name i = n /\ forall s, SerBase.f_ser f = Some s -> ser_of w sc = Built s) /\
  (forall i sc, In (i, sc) fields -> exists f, In (name i, f) fs).
Proof.
  intros H. apply all_built_forall in H. apply forall2_map_l in H. induction H as [|[i sc] [n f] fields fs H HF IH]; [split; intros; contradiction|].
  cbn [fst snd] in H. assert (G : name i = n /\ forall s, SerBase.f_ser f = Some s -> ser_of w sc = Built s).
  { unfold field_of in H. destruct (w_hidden w (name i)); [injection H as <- <-; split; [reflexivity|discriminate]|].
    destruct (ser_of w sc) as [s| |]; cbn in H; try discriminate. injection H as <- <-. split; [reflexivity|]. cbn. now intros s' [= ->]. }
  destruct IH as [IH1 IH2]. split.
  - intros n' f' [[= <- <-]|I']; [exists i, sc; cbn; intuition|]. destruct (IH1 n' f' I') as (i' & sc' & J & K). exists i', sc'. cbn. auto.
  - intros i' sc' [[= <- <-]|I']; [exists f; left; f_equal; now symmetry|]. destruct (IH2 i' sc' I') as [f' J]. exists f'. now right.
Qed.
Lemma nodup_same {I} (name : I -> str) (fields : list (I * schema)) i sc i' sc' :
  NoDup (map (fun f => name (fst f)) fields) -> In (i, sc) fields -> In (i', sc') fields -> name i = name i' -> sc = sc'.
Proof.
  induction fields as [|[j sj] fields IH]; cbn [map In fst]; intros N H1 H2 Q; [contradiction|]. inversion N as [|? ? N1 N2]; subst.
  destruct H1 as [[= -> ->]|H1], H2 as [[= -> ->]|H2]; auto.
  - exfalso. apply N1. rewrite Q. now apply (in_map (fun f : I * schema => name (fst f))) in H2.
  - exfalso. apply N1. rewrite <- Q. now apply (in_map (fun f : I * schema => name (fst f))) in H1.
Qed.

Definition Good sc := forall s v, ser_of w sc = Built s -> conforms sc v -> fits v -> suits s v.
Definition GoodFields (b : bool) sc := forall s d x fs, ser_of w sc = Built s -> conforms sc (PTuple [d; x; fs]) -> open = false -> tidy d ->
  b = false /\ exists l, d = PDict l /\ forall keep, suits s (PDict (List.filter keep l)).

Lemma fits_list l x : fits (PList l) -> In x l -> fits x.
Proof. intros [T B] I. split; [inversion T; subst; auto|]. intros G. specialize (B G). inversion B; subst. auto. Qed.
Lemma fits_tuple l x : fits (PTuple l) -> In x l -> fits x.
Proof. intros [T B] I. split; [inversion T; subst; auto|]. intros G. specialize (B G). inversion B; subst. auto. Qed.
Lemma fits_set l x : fits (PSet l) -> In x l -> fits x.
Proof. intros [T B] I. split; [inversion T; subst; auto|]. intros G. specialize (B G). inversion B; subst. auto. Qed.
Lemma fits_frozenset l x : fits (PFrozenSet l) -> In x l -> fits x.
Proof. intros [T B] I. split; [inversion T; subst; auto|]. intros G. specialize (B G). inversion B; subst. auto. Qed.
Lemma fits_dict d k v : fits (PDict d) -> In (k, v) d -> fits k /\ fits v.
Proof.
  intros [T B] I. assert (tidy k /\ tidy v) by (inversion T; subst; auto). assert (open = true -> built_in k /\ built_in v) by (intros G; specialize (B G); inversion B; subst; auto).
  unfold fits. intuition.
Qed.
Ltac built H := match type of H with bbind ?m _ = _ => let s := fresh "s" in let Q := fresh "Q" in destruct m as [s| |] eqn:Q; cbn [bbind] in H; try discriminate H end.

Lemma tuple_inv c items v : conforms (STuple c items) v -> exists slots n, v = PTuple (somes (map snd slots)) /\ map fst slots = expanded items (tn_variadic c) n /\
  (forall sc u, In (sc, Some u) slots -> conforms sc u) /\ (forall sc, In (sc, None) slots -> omittable defs sc).
Proof. intros C. inversion C; subst. exists slots, n. auto. Qed.
Lemma chain_inv steps sc v : conforms (SChain (steps ++ [sc])) v -> conforms sc v.
Proof. intros C. inversion C; subst. match goal with H : _ ++ [_] = _ ++ [_] |- _ => apply app_inj_tail in H; destruct H as [_ <-] end. assumption. Qed.
Lemma tuple_suits c items s v : (forall sc, In sc items -> Good sc) -> (forall sc, In sc items -> ~ omittable defs sc) ->
  ser_of w (STuple c items) = Built s -> conforms (STuple c items) v -> fits v -> suits s v.
Proof.
  intros IH NO Q C O. cbn [ser_of] in Q. built Q. apply all_built_forall, forall2_map_l in Q0.
  destruct (tuple_inv c items v C) as (slots & n & -> & SL & SC & SO).
  assert (IN : forall sc, In sc (map fst slots) -> In sc items).
  { intros sc. rewrite SL. unfold expanded. destruct (tn_variadic c) as [k|]; [|auto]. intros I. apply in_app_or in I. destruct I as [I|I].
    - rewrite <- (firstn_skipn k items). apply in_or_app. now left.
    - apply in_app_or in I. destruct I as [I|I].
      + destruct (nth_error items k) as [sc'|] eqn:NE; [|contradiction]. apply repeat_spec in I. subst. now apply nth_error_In in NE.
      + rewrite <- (firstn_skipn (S k) items). apply in_or_app. now right. }
  assert (F : Forall2 (fun a b => In (a, Some b) slots) (map fst slots) (somes (map snd slots))).
  { apply somes_forall2. intros a I. apply (NO a); [|now apply SO]. apply IN. now apply (in_map fst) in I. }
  assert (EACH : forall ss, Forall2 (fun sc s => ser_of w sc = Built s) (map fst slots) ss ->
    forall s x, In (s, x) (combine ss (somes (map snd slots))) -> suits s x).
  { intros ss FS s' x I. pose proof I as I'. apply in_combine_r in I'. destruct (forall2_combine _ _ _ _ _ _ _ FS F I) as (sc & I1 & B & I2). apply (IH sc (IN sc I1)); auto.
    now apply (fits_tuple _ _ O). }
  pose proof (forall2_len _ _ _ F) as LF. pose proof (forall2_len _ _ _ Q0) as LS.
  rewrite SL in EACH, LF. unfold expanded in EACH, LF. destruct (tn_variadic c) as [k|].
  - destruct (Nat.leb (length s0) k) eqn:LE; [discriminate|]. injection Q as <-. apply Nat.leb_gt in LE. apply SuVariadic; [exact LE|].
    destruct (forall2_nth _ k _ _ SerBase.SerAny Q0 LE) as (sc & NE & B). rewrite NE in EACH, LF. apply EACH.
    apply forall2_app; [now apply forall2_firstn|]. rewrite !app_length, repeat_length, firstn_length, skipn_length in LF.
    replace (length (somes (map snd slots)) + 1 - length s0)%nat with n by lia. replace (k + 1)%nat with (S k) by lia.
    apply forall2_app; [now apply forall2_repeat|now apply forall2_skipn].
  - injection Q as <-. apply SuTuple; [congruence|]. apply EACH. exact Q0.
Qed.

Lemma fields_suits {J0} (name : J0 -> str) (req : J0 -> bool) (fields : list (J0 * schema)) fs mode ex d :
  all_built (map (fun f => field_of w (req (fst f)) (name (fst f)) (ser_of w (snd f))) fields) = Built fs ->
  (forall f sc, In (f, sc) fields -> Good sc) -> NoDup (map (fun f => name (fst f)) fields) -> mode <> SerBase.ModelExtra ->
  (forall k v, In (k, v) d -> fits v) ->
  (forall k v, In (k, v) d -> (exists f sc, In (f, sc) fields /\ k = PStr (name f) /\ conforms sc v) \/
     (exists n, k = PStr n) /\ (forall f sc, In (f, sc) fields -> k <> PStr (name f)) /\
     (SerBase.is_td_allow mode = true -> built_in v /\ forall s, ex = Some s -> suits s v)) ->
  suits (SerBase.SerFields mode fs ex []) (PDict d).
Proof.
  intros FS IH ND M FT H. destruct (fields_found name req fields fs FS) as [F1 F2]. apply SuFields; [exact M| | | |].
  - intros n f s v I A S'. apply nodup_assoc_in in A. destruct (F1 n f A) as (i & sc & J & N & B). destruct (H _ _ I) as [(i' & sc' & J' & K & C)|(_ & X & _)].
    + injection K as K. assert (sc = sc') as <- by (apply (nodup_same name fields i sc i' sc' ND J J'); congruence). apply (IH i sc J s v); auto. now apply (FT _ _ I).
    + exfalso. apply (X i sc J). congruence.
  - intros k v I. destruct (H _ _ I) as [(i' & sc' & J' & K & C)|(X & _)]; [eauto|exact X].
  - intros T n v I A. destruct (H _ _ I) as [(i' & sc' & J' & K & C)|(_ & _ & X)]; [|now apply X].
    exfalso. injection K as ->. destruct (F2 i' sc' J') as [f G]. exact (assoc_not_none _ _ _ G A).
  - intros T n v s I A S'. destruct (H _ _ I) as [(i' & sc' & J' & K & C)|(_ & _ & X)]; [|now apply (proj2 (X T))].
    exfalso. injection K as ->. destruct (F2 i' sc' J') as [f G]. exact (assoc_not_none _ _ _ G A).
Qed.

Lemma td_inv c fields ex v : conforms (STypedDict c fields ex) v -> exists d, v = PDict d /\ forall k u, In (k, u) d ->
  (exists f sc, In (f, sc) fields /\ k = PStr (fi_name f) /\ conforms sc u) \/
  (fo_extra c = ExtraAllow /\ (exists n, k = PStr n) /\ (forall sc, ex = Some sc -> conforms sc u) /\
   (strings = false -> forall f sc, In (f, sc) fields -> k = PStr (fi_name f) -> ~ unaliased (fi_name f) (fi_keys f))).
Proof. intros C. inversion C; subst. exists d. auto. Qed.
Lemma mf_inv c fields ex exk d x fs : conforms (SModelFields c fields ex exk) (PTuple [d; x; fs]) -> exists l, d = PDict l /\
  forall k u, In (k, u) l -> exists f sc, In (f, sc) fields /\ k = PStr (fi_name f) /\ conforms sc u.
Proof. intros C. inversion C; subst. eexists. split; [reflexivity|assumption]. Qed.
Lemma model_inv m sc v : checked E m -> mo_root m = false -> conforms (SModel m sc) v -> exists d x fs fs', v = model_inst (mo_cls m) d x fs' /\ conforms sc (PTuple [d; x; fs]).
Proof.
  intros CK RF C. inversion C; subst; try congruence.
  - match goal with H : should_revalidate _ _ _ = false |- _ => erewrite (ck_revalidate _ _ CK) in H; [discriminate|eassumption|assumption] end.
  - rewrite (ck_init _ _ CK) in *. discriminate.
  - rewrite (ck_post _ _ CK) in *. match goal with H : after_init None _ _ |- _ => cbn in H; subst v end. eauto 6.
Qed.
Lemma root_inv m sc v : checked E m -> mo_root m = true -> conforms (SModel m sc) v -> exists out fs, v = root_inst (mo_cls m) out fs /\ conforms sc out.
Proof.
  intros CK RF C. inversion C; subst; try congruence.
  - match goal with H : should_revalidate _ _ _ = false |- _ => erewrite (ck_revalidate _ _ CK) in H; [discriminate|eassumption|assumption] end.
  - rewrite (ck_init _ _ CK) in *. discriminate.
  - rewrite (ck_post _ _ CK) in *. match goal with H : after_init None _ _ |- _ => cbn in H; subst v end. eauto 6.
Qed.
Lemma dict_inv c k v' v : conforms (SDict c k v') v -> exists d, v = PDict d /\ forall a b, In (a, b) d -> conforms k a /\ conforms v' b.
Proof. intros C. inversion C; subst. exists d. split; [reflexivity|]. intros a b I. match goal with H : forall a b, In (a, b) d -> _ |- _ => destruct (H a b I) as (_ & ? & ?); auto end. Qed.
Lemma set_inv fz c sc v : conforms (SSet fz c sc) v -> exists l, v = (if fz then PFrozenSet l else PSet l) /\ forall x, In x l -> conforms sc x.
Proof. intros C. inversion C; subst. exists l. split; [reflexivity|]. intros x I. match goal with H : forall x, In x l -> _ |- _ => now destruct (H x I) end. Qed.
Lemma typed_dict_suits c fields ex s v : (forall f sc, In (f, sc) fields -> Good sc) -> NoDup (map (fun f => fi_name (fst f)) fields) ->
  (fo_extra c = ExtraAllow -> strings = false /\ forall f sc, In (f, sc) fields -> unaliased (fi_name f) (fi_keys f)) ->
  (w_td_extra w c = true -> fo_extra c = ExtraAllow -> open = true) ->
  (w_td_extra w c = true -> fo_extra c = ExtraAllow -> forall sc, ex = Some sc -> Good sc) ->
  ser_of w (STypedDict c fields ex) = Built s -> conforms (STypedDict c fields ex) v -> fits v -> suits s v.
Proof.
  intros IH ND AL OP IHX Q C O. cbn [ser_of] in Q. built Q. built Q. injection Q as <-. destruct (td_inv _ _ _ _ C) as (d & -> & H3).
  apply (fields_suits fi_name fi_required fields); auto; [now destruct (w_td_extra w c)|intros k v I; now apply (fits_dict d k v)|].
  intros k v I. destruct (H3 k v I) as [G|(A & N & X & U)]; [now left|]. right. split; [exact N|]. destruct (AL A) as [ST UN]. split.
  - intros f sc J K. exact (U ST f sc J K (UN f sc J)).
  - intros T. assert (WT : w_td_extra w c = true) by (destruct (w_td_extra w c); [reflexivity|discriminate]). pose proof (OP WT A) as OT.
    destruct (fits_dict d k v O I) as [_ FV]. split; [now apply FV|]. intros s ->. destruct ex as [sc|]; cbn [extras_of] in Q0; [rewrite WT in Q0|discriminate].
    built Q0. injection Q0 as ->. apply (IHX WT A sc eq_refl); auto.
Qed.

Lemma model_fields_suits c fields : (forall f sc, In (f, sc) fields -> Good sc) -> NoDup (map (fun f => fi_name (fst f)) fields) ->
  fo_extra c <> ExtraAllow -> GoodFields false (SModelFields c fields None None).
Proof.
  intros IH ND NE s d x fs Q C OP TD. split; [reflexivity|]. destruct (mf_inv _ _ _ _ _ _ _ C) as (l & -> & H5). exists l. split; [reflexivity|]. intros keep. cbn [ser_of] in Q. cbn [extras_of bbind] in Q. built Q.
  assert (s = SerBase.SerFields SerBase.SimpleDict s0 None []) as ->. { destruct (fo_extra c); try congruence; now injection Q as <-. }
  apply (fields_suits fi_name (fun _ => true) fields); auto; [discriminate| |].
  - intros k v I. apply filter_In in I. split; [|congruence]. inversion TD as [| | | | | | | | | |d' HT| |]; subst. now apply (HT k v).
  - intros k v I. apply filter_In in I. left. now apply H5.
Qed.

Lemma conforms_suits sc : steady sc -> Good sc.
Proof.
  revert sc. apply (steady_ind2 E defs strings w open Good GoodFields); unfold Good; cbn [ser_of].
  - intros OP s v [= <-] C O. constructor. now apply O.
  - intros cls OP s v [= <-] C O. constructor. now apply O.
  - intros s v [= <-] C O. inversion C; subst. constructor.
  - intros st s v [= <-] C O. inversion C; subst. constructor.
  - intros st c s v [= <-] C O. inversion C; subst. constructor.
  - intros st c s v [= <-] C O. inversion C; subst. constructor.
  - intros c s v [= <-] C O. inversion C; subst. constructor.
  - intros c s v [= <-] C O. inversion C; subst. match goal with H : _ = PBytes ?b |- _ => apply (SuBytes _ _ _ _ b); revert H end.
    destruct v as [|b'|z|f|t|b'|l|l|l|l|l|cls a|cls u]; cbn; try discriminate; intros Q; [now injection Q as <-|].
    destruct O as [O _]. inversion O as [| | | | | | | | | | | |c1 u1 NS TU]; subst. destruct u; cbn in Q; try discriminate; [now injection Q as <-|]. exfalso. now eapply NS.
  - intros l H s v Q C O. inversion C; subst. destruct l; [contradiction|]. injection Q as <-. constructor. now apply H.
  - intros c sc _ IH s v Q C O. built Q. injection Q as <-. inversion C; subst. constructor. intros x I. apply (IH s0 x eq_refl); [eauto|now apply (fits_list l)].
  - intros c OP s v [= <-] C O. inversion C; subst. constructor. intros x I. constructor. now apply (fits_list l x O I).
  - intros frozen c sc _ IH s v Q C O. built Q. injection Q as <-. destruct (set_inv _ _ _ _ C) as (l & -> & H5).
    destruct frozen; constructor; intros x I; (apply (IH s0 x eq_refl); [now apply H5|]); [now apply (fits_frozenset l)|now apply (fits_set l)].
  - intros c items _ IH NO s v Q C O. now apply (tuple_suits c items).
  - intros c k v' _ IH1 _ IH2 s v Q C O. built Q. built Q. injection Q as <-. destruct (dict_inv _ _ _ _ C) as (d & -> & H4).
    constructor; intros a b I; destruct (fits_dict d a b O I); [apply (IH1 s0 a eq_refl)|apply (IH2 s1 b eq_refl)]; auto; now apply (H4 a b I).
  - intros sc _ IH s v Q C O. built Q. injection Q as <-. inversion C; subst; [constructor|]. apply SuNullSome. now apply IH.
  - intros k o vd sc _ IH D s v Q C O. built Q. injection Q as <-. constructor. apply IH; auto. inversion C; subst; auto.
  - intros steps sc _ IH s v Q C O. rewrite map_app in Q. cbn [map] in Q. rewrite last_last in Q. apply IH; auto.
    now apply (chain_inv steps).
  - intros j p _ IH1 _ IH2 SAME s v Q C O. built Q. built Q. injection Q as <-. assert (conforms j v /\ conforms p v) as [C1 C2] by (inversion C; subst; split; auto; now apply SAME).
    constructor; auto.
  - intros st l t _ IH SUB s v Q C O. apply IH; auto. inversion C; subst; auto.
  - intros t sc _ IH s v Q C O. apply IH; auto. inversion C; subst; auto.
  - intros f own sc _ IH s v Q C O. apply IH; auto. inversion C; subst; auto.
  - intros f own sc _ IH SUB s v Q C O. apply IH; auto.
  - intros f own sc _ IH SUB s v Q C O. apply IH; auto.
  - intros c fields ex _ IH ND AL OP _ IHX s v Q C O. now apply (typed_dict_suits c fields ex).
  - intros m sc RF CK _ IH s v Q C O. built Q. injection Q as <-. rewrite RF. destruct (model_inv m sc v CK RF C) as (d & x & fs & fs' & -> & C').
    destruct O as [T O]. assert (OP : open = false) by (destruct open; [specialize (O eq_refl); inversion O|reflexivity]).
    assert (TD : tidy d) by (inversion T as [| | | | | | | | | | |c' at' HT|]; subst; apply (HT dunder_dict); now left).
    destruct (IH s0 d x fs Q0 C' OP TD) as (WB & l & -> & K). rewrite WB. apply (SuModel _ _ _ _ _ l); [reflexivity|exact K].
  - intros m sc RF CK _ IH s v Q C O. built Q. injection Q as <-. rewrite RF. destruct (root_inv m sc v CK RF C) as (out & fs & -> & C').
    destruct O as [T O]. assert (OP : open = false) by (destruct open; [specialize (O eq_refl); inversion O|reflexivity]).
    apply (SuRoot _ _ _ _ _ _ out); [discriminate|reflexivity|]. apply IH; auto. split; [|congruence].
    inversion T as [| | | | | | | | | | |c' at' HT|]; subst. apply (HT Assign.root_name). right. now left.
  - intros k s v [= <-] C O. assert (exists d, defs k = Some d /\ conforms d v) as (d & H0 & H1) by (inversion C; subst; eauto). destruct (Hdefs k d H0) as (ST & s & B & D). apply (SuDef _ _ k _ s); [exact D|]. exists d. auto.
  - intros c fields _ IH ND NE. now apply model_fields_suits.
  - intros b f own sc _ IH s d x fs Q C OP. apply (IH s d x fs); auto. inversion C; subst; auto.
Qed.
Lemma expected_suits s v : expected s v -> suits s v.
Proof. intros (sc & ST & B & C & O). now apply (conforms_suits sc ST). Qed.
End SerOfProofs.
