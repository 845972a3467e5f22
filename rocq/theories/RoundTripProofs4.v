(** The main induction, continued: sequences, dicts, references. *)
From Coq Require Import List NArith ZArith Bool Permutation Lia.
From Verif Require Import Base Utf8 Float64 IntParse IntParseProps Numbers BytesCodec BytesCodecSpec BytesCodecProps Decimal Values VState LookupKey Collections Child Inputs Scalars Wrappers Tuple ModelFields TypedDict Assign Classes Interp InterpSpec InterpProofs ConformSpec ConformProofs4 ConformProofs7 StableSpec StableProofs StableProofs2 StableProofs3 StableProofs4 NumbersProofs RoundTripSpec RoundTripForward RoundTripForward2.
From Verif Require NumbersSpec Filter SerBase Ser SerText.
From Verif Require Import RoundTripSer RoundTripOut RoundTripProofs RoundTripProofs2 RoundTripProofs3.
Import ListNotations.
Open Scope nat_scope.

Lemma lossy_scalar u : forallb scalar u = true -> SerBase.lossy u = u.
Proof. unfold SerBase.lossy. induction u as [|c u IH]; [reflexivity|]. cbn. intros H. apply andb_prop in H. destruct H as [-> H]. cbn. now rewrite IH. Qed.
Lemma F2_in_imp A B (P Q : A -> B -> Prop) l m : Forall2 P l m -> (forall a b, In a l -> P a b -> Q a b) -> Forall2 Q l m.
Proof. induction 1 as [|a b l m H F IH]; constructor; [apply H0; [now left|exact H]|]. apply IH. intros; apply H0; [now right|assumption]. Qed.
Lemma F2_in_both A B (P Q : A -> B -> Prop) l m : Forall2 P l m -> (forall a b, In a l -> In b m -> P a b -> Q a b) -> Forall2 Q l m.
Proof. induction 1 as [|a b l m H F IH]; constructor; [apply H0; [now left|now left|exact H]|]. apply IH. intros; apply H0; [now right|now right|assumption]. Qed.
Lemma F2_trans A B C (P : A -> B -> Prop) (Q : B -> C -> Prop) l m : Forall2 P l m -> forall n, Forall2 Q m n -> Forall2 (fun a c => exists b, P a b /\ Q b c) l n.
Proof. induction 1; intros n H1; inversion H1; subst; constructor; eauto. Qed.
Lemma F2_flip A B (P : A -> B -> Prop) l m : Forall2 P l m -> Forall2 (fun b a => P a b) m l.
Proof. induction 1; constructor; auto. Qed.

Section Main.
Variable E : env.
Variable defs : nat -> option schema.
Variable SE : SerBase.env.
Variables (ba : option bool) (rt : bool) (vba vbn : option bool) (js : bool).
Notation pair := (pair defs E ba rt vba vbn js).
Notation conf := (conforms (unseen E) defs false).
Notation neat := (neat js ba rt).
Notation plain := (plain (e_max_digits E)).
Notation out := (out js).
Notation gives := (gives vba vbn).
Hypothesis DP : definitions_pair defs E ba rt vba vbn js (SerBase.e_def SE).
Hypothesis wd : 0 < e_wd_fuel E.
Notation goal := (goal E defs SE ba rt vba vbn js).
Notation read_back := (read_back E defs vba vbn js).

Lemma goal_nullable n sc : goal n sc -> goal n (SNullable sc).
Proof.
  intros IH se P v x i PL C NE O. inversion P as [| | | | | |? s PS SO| | | | | | | | | |]; subst. cbn [Ser.build] in O.
  destruct (match v with PNone => true | _ => false end) eqn:VN.
  - destruct v; try discriminate. apply out_null in O. subst i. split; [destruct js; reflexivity || exact I|]. split; [reflexivity|]. intros fuel depth _ _ s0 C0. cbn [eval no_default cv_validate]. unfold nullable.
    exists PNone, s0. split; [destruct js; reflexivity|]. split; [constructor|exact C0].
  - apply out_nullable in O; [|intros ->; discriminate]. assert (CV : conf sc v) by (inversion C; subst; [discriminate|assumption]).
    destruct (IH s PS v x i PL CV NE O) as (UN & NN & RB). split; [exact UN|]. split; [intros _; exact (NN SO)|].
    intros fuel depth NF DL s0 C0. cbn [eval no_default cv_validate]. unfold nullable. destruct (is_none_input i) eqn:NI; [rewrite (NN SO eq_refl) in VN; discriminate|]. exact (RB fuel depth NF DL s0 C0).
Qed.
Lemma goal_default n k o vd sc : goal n sc -> goal n (SDefault k o vd sc).
Proof.
  intros IH se P v x i PL C NE O. inversion P as [| | | | | | |? ? ? ? d s PS OO DV| | | | | | | | |]; subst. cbn [Ser.build] in O. apply out_default in O.
  assert (CV : conf sc v) by (inversion C; subst; auto). destruct (IH s PS v x i PL CV NE O) as (UN & NN & RB). split; [exact UN|]. split; [intros SO; inversion SO; subst; [contradiction|auto]|].
  intros fuel depth NF DL s0 C0. destruct (RB fuel depth NF DL s0 C0) as (y & s1 & Q & EQ & C1). cbn [eval wd_cv cv_validate]. exists y, s1. split; [|now split].
  revert wd. destruct (e_wd_fuel E) as [|f]; [lia|]. intros _. cbn [wd_validate]. rewrite (unclassed_defined _ UN). cbn [wd_inner]. now rewrite Q.
Qed.
Lemma goal_list n c sc : (forall s, sc = Some s -> goal n s) -> goal n (SList c sc).
Proof.
  intros IH se P v x i PL C NE O. inversion P as [| | | | | | | |? sc' s PS| | | | | | | |]; subst. inversion C; subst. inversion PL; subst. cbn [Ser.build] in O. apply out_list in O. destruct O as (is & A & F).
  split; [eapply arr_unclassed; eauto; reflexivity|]. split; [intros _ NI; rewrite (arr_not_none js _ _ i) with (2 := A) in NI by discriminate; discriminate|].
  intros fuel depth NF DL. cbn [eval no_default cv_validate option_map]. destruct (arr_list _ _ _ A) as (sq & V & SI).
  eapply gives_impl; [|eapply (list_gives vba vbn equal c _ _ _ sq is l V SI)]; [intros y (ys & -> & Q); now constructor| |assumption].
  apply F2_flip. eapply F2_in_imp; [exact F|]. intros a b J OA. eapply (IH sc' eq_refl); eauto.
Qed.
Lemma hash_gives n sc s (FL : flat sc = true) : goal n sc -> pair sc s -> forall v x i, plain v -> conf sc v -> neat x -> out (Ser.build SE (Ser.levels SE n) s) v x i ->
  forall fuel depth, n < fuel -> (js = false -> depth + n <= guard_limit) -> gives (eq v) (cv_validate (eval E (refs E defs fuel depth) sc)) i.
Proof.
  intros IH PS v x i PL CV NE O fuel depth NF DL. eapply gives_impl; [|eapply (IH s PS v x i); eauto]. intros y. apply (flat_equal E defs sc FL v y CV).
Qed.
Lemma goal_set n fz c sc : goal n sc -> goal n (SSet fz c sc).
Proof.
  intros IH se P v x i PL C NE O.
  assert (exists s l, pair sc s /\ flat sc = true /\ v = (if fz then PFrozenSet l else PSet l) /\ (forall a, In a l -> plain a) /\ within (co_min c) (co_max c) (length l) /\
    (forall x, In x l -> hashable x = true /\ conf sc x) /\ distinct (fun x => x) l /\
    exists is, arr js (if fz then PFrozenSet else PSet) is i /\ Forall2 (fun v i => out (Ser.build SE (Ser.levels SE n) s) v x i) l is) as (s & l & PS & FL & -> & PA & W & HC & D & is & A & F).
  { assert (K : forall s l, js = false -> pair sc s -> flat sc = true -> (forall a, In a l -> plain a) -> (forall x, In x l -> hashable x = true /\ conf sc x) -> forall v w, In v l -> snd (Ser.z_py (Ser.build SE (Ser.levels SE n) s) v None None x) = SerBase.Good w -> w = v).
    { clear O PL C P v. intros s l JS PS FL PA HC v w J G. revert DP IH NE PS. rewrite JS. intros DP' IH NE PS. eapply flat_out; eauto. now apply HC. }
    inversion P; subst; inversion C; subst; inversion PL; subst; cbn [Ser.build] in O; apply (out_set js rt ba) in O; auto; try (intros; eapply K; eauto; fail);
      eexists s, l; repeat (split; [first [assumption|reflexivity]|]); assumption. }
  split; [eapply arr_unclassed; eauto; destruct fz; reflexivity|]. split; [intros _ NI; rewrite (arr_not_none js _ _ i) with (2 := A) in NI by (destruct fz; discriminate); discriminate|].
  intros fuel depth NF DL. cbn [eval no_default cv_validate].
  assert (V : exists sq, (forall st, (if fz then validate_frozenset else validate_set) st i = VOk sq) /\ sq_items sq = map It is) by (destruct fz; [now apply (arr_frozenset js)|now apply (arr_set js)]).
  destruct V as (sq & V & SI).
  eapply gives_impl; [|eapply (set_gives vba vbn equal fz c _ _ i sq is l V SI)]; [intros y <-; constructor| |intros a J; now apply HC|exact D|exact W].
  apply F2_flip. eapply F2_in_imp; [exact F|]. intros a b J OA. eapply hash_gives; eauto. now apply HC.
Qed.
Lemma goal_tuple n c items : (forall sc, In sc items -> goal n sc) -> goal n (STuple c items).
Proof.
  intros IH se P v x i PL C NE O. inversion P as [| | | | | | | | | | |? ? ss F K MD| | | | |]; subst.
  assert (exists l, v = PTuple l) as (l & ->) by (inversion C; eauto). inversion PL as [| | | | | | |? PI| | | |]; subst.
  destruct (out_tuple_pair E defs SE ba rt vba vbn js DP _ c items ss l x i F K C NE O) as (m & izs & A & B & D & MN & MX).
  split; [eapply arr_unclassed; eauto; reflexivity|]. split; [intros _ NI; rewrite (arr_not_none js _ _ i) with (2 := B) in NI by discriminate; discriminate|].
  intros fuel depth NF DL. cbn [eval no_default cv_validate]. destruct (arr_tuple _ _ _ B) as (sq & V & SI).
  assert (LL : length izs = length l) by (rewrite <- A; symmetry; apply map_length).
  eapply gives_impl; [|eapply (tuple_gives vba vbn equal (eval E (refs E defs fuel depth)) (mk_tuple c (map (eval E (refs E defs fuel depth)) items)) items m _ i sq izs V SI)].
  - rewrite A. intros y (ys & -> & Q). now constructor.
  - reflexivity.
  - exact K.
  - cbn [tu_variadic mk_tuple]. eapply F2_in_both; [exact D|]. intros sc p JS J (se & P1 & P2 & P3).
    apply expanded_in in JS. unfold each. eapply (IH sc JS se P1 (snd p) x (fst p)); eauto. apply PI. rewrite <- A. now apply in_map.
  - cbn. now rewrite LL.
  - cbn. rewrite LL. intros mm Q. destruct MD as [MD|MD]; [congruence|]. now apply MX.
Qed.
(** *** Dicts *)
Lemma key_gives sc s L v x i ref : key_pair sc s -> plain v -> conf sc v -> key_out true (Ser.build SE L s) v x i -> gives (eq v) (cv_validate (eval E ref sc)) i.
Proof.
  intros K PL C (t & -> & H). destruct K; inversion C; subst; cbn [Ser.build] in H; cbn [eval no_default cv_validate].
  - cbn in H. injection H as <-. apply bool_gives. intros st'. exists Lax. destruct b; reflexivity.
  - inversion PL; subst. cbn [Ser.int_ser Ser.simple Ser.z_key] in H. cbn in H. injection H as <-. rewrite lossy_scalar by (apply forallb_forall, Forall_forall, SerText.scalars_dec).
    apply (int_gives _ _ _ _ _ _ _ (number_int z)); auto; [apply number_int_val|]. intros st'. cbn. unfold in_str_as_int. rewrite C05_decimal_text_roundtrip by assumption. cbn. eauto.
  - destruct H0 as [K1 K2]. rewrite K1, K2 in *. inversion PL; subst. cbn in H. injection H as <-. rewrite lossy_scalar by assumption. apply str_gives; [now split|assumption|]. intros st' co. cbn. eauto.
  - inversion PL; subst; try discriminate. cbn in *. match goal with K : PBytes _ = PBytes _ |- _ => injection K as -> end. apply bytes_gives; [assumption|]. intros st'. cbn.
    unfold SerBase.opt in H. destruct (bytes_to_string (bc_mode c) b) as [u|] eqn:B; [|discriminate]. injection H as <-.
    unfold in_deserialize. rewrite (C53_bytes_roundtrip _ _ _ ltac:(eassumption) B). cbn. eauto.
Qed.
Lemma goal_dict n c k v : goal n k -> goal n v -> goal n (SDict c k v).
Proof.
  intros IK IV se P w x i PL C NE O. inversion P as [| | | | | | | | | | | |? ? ? ks vs KJ KP FL PV| | | |]; subst. inversion C; subst. inversion PL as [| | | | | | | | | |? PD|]; subst.
  match goal with K : forall a b, In (a, b) d -> hashable a = true /\ _ |- _ => rename K into HC end.
  cbn [Ser.build] in O. apply (out_dict js rt ba) in O; [|assumption| |exact NE].
  2:{ intros JS a b w J G. revert DP IK NE KP. rewrite JS. intros DP' IK' NE' KP. destruct (PD a b J) as [PA _]. destruct (HC a b J) as (_ & CA & _). eapply flat_out; eauto. }
  destruct O as (es & OB & F). split; [eapply obj_unclassed; eauto|]. split; [intros _ NI; rewrite (obj_not_none js es i OB) in NI; discriminate|].
  intros fuel depth NF DL. cbn [eval no_default cv_validate]. destruct (obj_entries js (e_repr E) es i OB) as (en & V & EN).
  eapply gives_impl; [|eapply (dict_gives vba vbn equal c _ _ _ i en d V)]; [intros y (ys & -> & Q1 & Q2); now econstructor| |intros a b J; now apply (HC a b)|assumption|assumption].
  apply F2_flip. eapply F2_in_imp; [exact (F2_trans _ _ _ _ _ _ _ F _ EN)|]. intros [a b] en0 J (e & (KO & VO) & kl & ->). cbn [fst snd] in *. exists (fst e), kl, (snd e). split; [reflexivity|].
  destruct (PD a b J) as [PA PB]. destruct (HC a b J) as (HA & CA & CB). cbn [fst snd]. split; [|eapply (IV vs PV b x); eauto].
  destruct (Bool.bool_dec js true) as [JS|JS].
  - rewrite JS in KO. eapply key_gives; eauto.
  - apply not_true_is_false in JS. rewrite JS in KO. destruct KO as (w & Q & -> & G). eapply (hash_gives n k ks FL); eauto. unfold RoundTripOut.out. rewrite JS. exists a. split; assumption.
Qed.
Lemma goal_ref n k : (forall m d, n = S m -> goal m d) -> goal n (SRef k).
Proof.
  intros IH se P v x i PL C NE O. inversion P; subst. apply (out_def SE js rt ba) in O; [|exact NE]. destruct O as (m & s & y & -> & D & NY & O).
  inversion C; subst. match goal with K : defs k = Some _ |- _ => pose proof (DP k) as PP; rewrite K, D in PP; rename K into DK end.
  destruct (IH m _ eq_refl s PP v y i PL ltac:(eassumption) NY O) as (UN & NN & RB). split; [exact UN|]. split; [intros SO; inversion SO; subst; [contradiction|]; match goal with K : defs k = Some _ |- _ => rewrite DK in K; injection K as -> end; auto|].
  intros fuel depth NF DL s0 C0. destruct fuel as [|f]; [lia|]. cbn [eval refs cv_validate]. rewrite DK. cbn [cv_validate]. cbv zeta. apply fresh_partial in C0.
  assert (IP : forall w, i = IPy w -> js = false) by (intros w ->; destruct js; [destruct O as (? & ? & _); discriminate|reflexivity]).
  destruct i as [w| | |].
  - specialize (DL (IP w eq_refl)). destruct (Nat.leb_spec guard_limit depth); [lia|]. apply (RB f (S depth)); [lia|intros; lia|exact C0].
  - apply (RB f depth); [lia| |exact C0]. intros JS. specialize (DL JS). lia.
  - apply (RB f depth); [lia| |exact C0]. intros JS. specialize (DL JS). lia.
  - apply (RB f depth); [lia| |exact C0]. intros JS. specialize (DL JS). lia.
Qed.
Theorem reads_back : forall n sc, goal n sc.
Proof.
  induction n as [n IHn] using lt_wf_ind. intros sc.
  assert (Q : goal n sc /\ forall c, In c (children sc) -> goal n c); [|exact (proj1 Q)].
  induction sc as [sc IH] using schema_children_ind. split; [|intros c J; exact (proj1 (IH c J))].
  assert (IC : forall c, In c (children sc) -> goal n c) by (intros c J; exact (proj1 (IH c J))).
  destruct sc; try (now apply goal_leaf); try (intros se P; inversion P; fail); cbn [children] in IC.
  all: try (apply goal_nullable, IC; now left). all: try (apply goal_default, IC; now left). all: try (apply goal_set, IC; now left).
  all: try (apply goal_tuple; exact IC). all: try (apply goal_dict; apply IC; cbn; auto).
  - apply goal_list. intros s ->. apply IC. now left.
  - apply goal_typed_dict; try assumption. intros f s J. apply IC. apply in_or_app. left. apply in_map_iff. now exists (f, s).
  - apply goal_model; try assumption; [|apply IC; now left]. intros c0 fields -> f s J. apply (proj2 (IH _ (or_introl eq_refl))). cbn [children]. apply in_or_app. left. apply in_map_iff. now exists (f, s).
  - apply goal_ref. intros m d ->. apply IHn. lia.
Qed.
End Main.
