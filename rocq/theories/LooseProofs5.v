From Coq Require Import List NArith ZArith Bool Lia.
From Verif Require Import Base Float64 IntParse Numbers BytesCodec Values VState LookupKey Collections Child Inputs Scalars Literal Wrappers Union TaggedUnion Tuple ModelFields TypedDict Assign Arguments Classes Interp InterpSpec InterpProofs StrictSpec StrictProofs StrictProofs3 StrictProofs5 LooseSpec LooseQuiet LooseOff LooseProofs LooseProofs2 LooseProofs3 LooseProofs4.
Import ListNotations.
Open Scope nat_scope.

(** ** What refers to unchanged definitions only is unchanged *)
Lemma opt_map_in A B (f g : A -> B) o : (forall x, In x (match o with Some x => [x] | None => [] end) -> f x = g x) -> option_map f o = option_map g o.
Proof. destruct o; cbn; [|reflexivity]. intros H. now rewrite H by now left. Qed.
Lemma eval_same E ref ref' (U : nat -> Prop) : (forall k, U k -> ref k = ref' k) -> forall sc, refs_in U sc -> eval E ref sc = eval E ref' sc.
Proof.
  intros R. apply (schema_children_ind (fun sc => refs_in U sc -> eval E ref sc = eval E ref' sc)).
  intros sc IH W. destruct W as [sc P W].
  assert (C : forall c, In c (children sc) -> eval E ref c = eval E ref' c) by (intros c X; apply IH; [exact X|apply W, X]). clear IH W.
  assert (CV : forall c, In c (children sc) -> cv_validate (eval E ref c) = cv_validate (eval E ref' c)) by (intros c X; now rewrite C).
  destruct sc; cbn [eval children] in *; try reflexivity; try (rewrite C by (now left); reflexivity).
  - now rewrite (opt_map_in _ _ _ _ _ CV).
  - now rewrite (map_ext_in _ _ _ C).
  - now rewrite (C sc1), (C sc2) by (cbn; auto).
  - now rewrite (map_ext_in _ _ _ CV).
  - now rewrite (C sc1), (C sc2) by (cbn; auto).
  - now rewrite (C sc1), (C sc2) by (cbn; auto).
  - assert (M : map (fun cl => {| ch_validator := cv_validate (eval E ref (fst cl)); ch_label := snd cl |}) choices = map (fun cl => {| ch_validator := cv_validate (eval E ref' (fst cl)); ch_label := snd cl |}) choices).
    { apply map_ext_in. intros x X. now rewrite C by now apply in_map. }
    now rewrite M.
  - assert (M : map (fun tc => (fst tc, cv_validate (eval E ref (snd tc)))) choices = map (fun tc => (fst tc, cv_validate (eval E ref' (snd tc)))) choices).
    { apply map_ext_in. intros x X. now rewrite C by now apply in_map. }
    now rewrite M.
  - rewrite (opt_map_in _ _ (fun sc => cv_validate (eval E ref sc)) (fun sc => cv_validate (eval E ref' sc)) extras) by (intros x X; apply CV, in_or_app; right; apply in_or_app; now left).
    rewrite (opt_map_in _ _ (fun sc => cv_validate (eval E ref sc)) (fun sc => cv_validate (eval E ref' sc)) extras_keys) by (intros x X; apply CV, in_or_app; right; apply in_or_app; now right).
    rewrite (map_ext_in (fun fi => mk_field (fst fi) (eval E ref (snd fi))) (fun fi => mk_field (fst fi) (eval E ref' (snd fi)))); [reflexivity|]. intros x X. now rewrite C by (apply in_or_app; left; now apply in_map).
  - rewrite (opt_map_in _ _ (fun sc => cv_validate (eval E ref sc)) (fun sc => cv_validate (eval E ref' sc)) extras) by (intros x X; apply CV, in_or_app; now right).
    rewrite (map_ext_in (fun fi => mk_field (fst fi) (eval E ref (snd fi))) (fun fi => mk_field (fst fi) (eval E ref' (snd fi)))); [reflexivity|]. intros x X. now rewrite C by (apply in_or_app; left; now apply in_map).
  - rewrite (opt_map_in _ _ (fun sc => cv_validate (eval E ref sc)) (fun sc => cv_validate (eval E ref' sc)) var_args) by (intros x X; apply CV, in_or_app; right; apply in_or_app; now left).
    rewrite (opt_map_in _ _ (fun sc => cv_validate (eval E ref sc)) (fun sc => cv_validate (eval E ref' sc)) var_kwargs) by (intros x X; apply CV, in_or_app; right; apply in_or_app; now right).
    rewrite (map_ext_in (fun fi => mk_param (fst fi) (eval E ref (snd fi))) (fun fi => mk_param (fst fi) (eval E ref' (snd fi)))); [reflexivity|]. intros x X. now rewrite C by (apply in_or_app; left; now apply in_map).
  - rewrite (opt_map_in _ _ (fun sc => cv_validate (eval E ref sc)) (fun sc => cv_validate (eval E ref' sc)) extras) by (intros x X; apply CV, in_or_app; now right).
    rewrite (map_ext_in (fun fi => mk_dcf (fst fi) (eval E ref (snd fi))) (fun fi => mk_dcf (fst fi) (eval E ref' (snd fi)))); [reflexivity|]. intros x X. now rewrite C by (apply in_or_app; left; now apply in_map).
  - apply R, P.
Qed.

(** ** Kinds that refuse None *)
Lemma none_or_undefined i : is_none_input i = true \/ is_undefined i = true -> i = IPy PNone \/ i = IJson JNull \/ i = IPy (PObj 0%N []).
Proof. intros [H|H]; destruct i as [[]|[]| |]; try discriminate; auto. cbn in H. destruct cls; [|discriminate]. destruct attrs; [auto|discriminate]. Qed.
Lemma refuses_ok E ref sc : refuses_none sc -> refuses (cv_validate (eval E ref sc)) /\ cv_default (eval E ref sc) = (fun _ s => (VOk None, s)).
Proof.
  intros R. destruct sc; try contradiction R; (split; [|reflexivity]); intros i s a t H; apply none_or_undefined in H; cbn [eval cv_validate no_default].
  - unfold bool_validate. destruct (strict_or _ _); destruct H as [->|[->| ->]]; discriminate.
  - unfold int_validate. destruct (strict_or _ _); destruct H as [->|[->| ->]]; discriminate.
  - unfold float_validate. destruct (strict_or _ _); destruct H as [->|[->| ->]]; discriminate.
  - unfold str_validate. destruct (strict_or _ _); destruct H as [->|[->| ->]]; discriminate.
  - unfold bytes_validate. destruct (strict_or _ _); destruct H as [->|[->| ->]]; discriminate.
  - unfold list_validate. destruct (strict_or _ _); destruct H as [->|[->| ->]]; discriminate.
  - unfold set_validate. destruct frozen, (strict_or _ _); destruct H as [->|[->| ->]]; discriminate.
  - unfold tuple_validate. cbv zeta. destruct (strict_or _ _); destruct H as [->|[->| ->]]; discriminate.
  - unfold dict_validate. destruct (strict_or _ _); destruct H as [->|[->| ->]]; discriminate.
  - unfold typed_dict_validate. destruct (strict_or _ _); destruct H as [->|[->| ->]]; discriminate.
Qed.

(** ** All kinds *)
Lemma f2_map A B C D (P : A -> B -> Prop) (Q : C -> D -> Prop) (f : A -> C) (g : B -> D) l l' : Forall2 P l l' -> (forall x y, In x l -> P x y -> Q (f x) (g y)) -> Forall2 Q (map f l) (map g l').
Proof. induction 1 as [|x y l l' H F IH]; cbn; intros K; constructor; [apply K; auto|apply IH; auto]. Qed.
Lemma deases_weaken n d d' : deases false d d' -> deases n d d'.
Proof. intros D l s a t O H. right. now apply (deases_none _ _ _ _ _ _ D). Qed.
Lemma deases_nd n v v' : deases n (cv_default (no_default v)) (cv_default (no_default v')). Proof. intros l s a t O H. now right. Qed.

Section All.
Variable E : env.
Variables ref ref' : nat -> cv.
Variable U : nat -> Prop.
Hypothesis FU : e_wd_fuel E <> 0.
Hypothesis RK : forall k, ckid false (ref k) (ref' k).
Hypothesis RU : forall k, U k -> ref k = ref' k.
Definition cvn (sc : schema) : Prop := cvne (eval E ref sc).
Lemma eval_kid : forall sc n sc', looser U n sc sc' -> everywhere orderly sc ->
  eases (cv_validate (eval E ref sc)) (cv_validate (eval E ref' sc')) /\ deases n (cv_default (eval E ref sc)) (cv_default (eval E ref' sc')).
Proof.
  assert (NE : forall sc, everywhere orderly sc -> cvne (eval E ref sc)).
  { apply eval_ne. intros k. split; [apply (k_ne _ _ (ck_v _ _ _ (RK k)))|apply (ck_dne _ _ _ (RK k))]. }
  assert (OF : forall sc, ckeeps (eval E ref sc)).
  { apply eval_off. intros k. split; [apply (k_off _ _ (ck_v _ _ _ (RK k)))|apply (ck_doff _ _ _ (RK k))]. }
  apply (schema_children_ind (fun sc => forall n sc', looser U n sc sc' -> everywhere orderly sc ->
    eases (cv_validate (eval E ref sc)) (cv_validate (eval E ref' sc')) /\ deases n (cv_default (eval E ref sc)) (cv_default (eval E ref' sc')))).
  intros sc IH n sc' L W.
  assert (C : forall c n c', In c (children sc) -> looser U n c c' -> ckid n (eval E ref c) (eval E ref' c')).
  { intros c m c' X Lc. assert (Wc : everywhere orderly c) by (destruct W as [sc _ W]; now apply W). destruct (IH _ X _ _ Lc Wc) as [A B]. destruct (NE _ Wc) as [N1 N2]. destruct (OF c) as [O1 O2].
    split; [split| | |]; assumption. }
  assert (CV : forall c n c', In c (children sc) -> looser U n c c' -> kid (cv_validate (eval E ref c)) (cv_validate (eval E ref' c'))).
  { intros c m c' X Lc. apply (ck_v _ _ _ (C _ _ _ X Lc)). }
  assert (OC : forall o o', (forall x, In x (match o with Some x => [x] | None => [] end) -> In x (children sc)) -> opt_rel (looser U true) o o' ->
     opt_rel kid (option_map (fun sc => cv_validate (eval E ref sc)) o) (option_map (fun sc => cv_validate (eval E ref' sc)) o')).
  { intros o o' I Lo. destruct Lo as [|a b Lab]; cbn; constructor. eapply CV; [apply I; now left|exact Lab]. }
  clear IH.
  induction L; cbn [children] in C, CV, OC.
  - rewrite (eval_same E ref ref' U RU _ H). split; [apply same_ease|]. intros l s a t O X. now right.
  - split; [now apply bool_ease|apply deases_nd].
  - split; [now apply int_ease|apply deases_nd].
  - split; [now apply float_ease|apply deases_nd].
  - split; [now apply str_ease|apply deases_nd].
  - split; [now apply bytes_ease|apply deases_nd].
  - split; [|apply deases_nd]. apply list_ease; [assumption|]. apply OC; auto.
  - split; [|apply deases_nd]. cbn [eval no_default cv_validate]. apply set_eases; [destruct z; [apply frozenset_reads|apply set_reads]|assumption|eapply CV; [now left|eassumption]].
  - split; [|apply deases_nd]. destruct H as (A1 & A2 & A3 & A4). apply tuple_ease; try assumption. cbn. eapply f2_map; [eassumption|]. intros x y X Y. now apply C.
  - split; [|apply deases_nd]. cbn [eval no_default cv_validate]. apply dict_ease; [eapply CV; [now left|eassumption]|eapply CV; [right; now left|eassumption]|assumption].
  - split; [|apply deases_nd]. apply nullable_ease. eapply k_ease, CV; [now left|eassumption].
  - destruct (refuses_ok E ref _ H) as [R1 R2]. destruct (IHL W C CV OC) as [A B]. split; [now apply add_nullable_ease|].
    intros l s a t O X. rewrite R2 in X. injection X as <- <-. now right.
  - destruct (wd_cv_ease (e_wd_fuel E) k o' vd _ _ (CV _ _ _ (or_introl eq_refl) L)) as [A B]. split; [exact A|apply deases_weaken, B].
  - destruct (refuses_ok E ref _ H) as [R1 R2]. destruct (IHL W C CV OC) as [A B]. split; [now apply add_default_ease|].
    intros l s a t O X. rewrite R2 in X. injection X as <- <-. now left.
  - split; [|apply deases_nd]. apply chain_ease. eapply f2_map; [eassumption|]. intros x y X Y. now apply (CV x true).
  - split; [|apply deases_nd]. apply jop_ease; eapply k_ease, CV; try eassumption; cbn; auto.
  - split; [|apply deases_nd]. cbn [eval no_default cv_validate]. rewrite <- (eval_same E ref ref' U RU t) by assumption. apply los_ease; [eapply k_ease, CV; [now left|eassumption]|apply OF].
  - split; [|apply deases_nd]. apply custom_ease. eapply k_ease, CV; [now left|eassumption].
  - split; [|apply deases_nd]. apply before_ease. eapply k_ease, CV; [now left|eassumption].
  - split; [|apply deases_nd]. apply after_ease. eapply k_ease, CV; [now left|eassumption].
  - split; [|apply deases_nd]. cbn [eval no_default cv_validate]. cbv zeta. rewrite !map_app. cbn [map fst snd].
    assert (M : map (fun cl => {| ch_validator := cv_validate (eval E ref' (fst cl)); ch_label := snd cl |}) cs = map (fun cl => {| ch_validator := cv_validate (eval E ref (fst cl)); ch_label := snd cl |}) cs).
    { apply map_ext_in. intros x X. rewrite Forall_forall in H. now rewrite (eval_same E ref ref' U RU _ (H x X)). }
    rewrite M. apply ltr_ease; [apply Forall_map_in; intros x X; apply OF|]. eapply CV; [|eassumption]. rewrite map_app. apply in_or_app. right. now left.
  - split; [|apply deases_nd]. apply tagged_ease. eapply f2_map; [eassumption|]. intros x y X [Y1 Y2]. cbn. split; [exact Y1|]. eapply k_ease, CV; [now apply in_map|eassumption].
  - split; [|apply deases_nd]. destruct H as (A1 & A2 & A3 & A4 & A5). apply model_fields_ease; try assumption; [apply mf_reads| | |]; cbn.
    + eapply f2_map; [eassumption|]. intros x y X (Y1 & Y2 & Y3). unfold fkid. cbn. split; [exact Y1|]. split; [exact Y2|]. apply C; [apply in_or_app; left; now apply in_map|exact Y3].
    + apply OC; [|assumption]. intros x X. apply in_or_app. right. apply in_or_app. now left.
    + apply OC; [|assumption]. intros x X. apply in_or_app. right. apply in_or_app. now right.
  - split; [|apply deases_nd]. destruct H as (A1 & A2 & A3 & A4 & A5). apply typed_dict_ease; try assumption; [apply dict_reads| |]; cbn.
    + eapply f2_map; [eassumption|]. intros x y X (Y1 & Y2 & Y3 & Y4). unfold tkid, fkid. cbn. split; [exact Y3|]. split; [exact Y1|]. split; [exact Y2|]. apply C; [apply in_or_app; left; now apply in_map|exact Y4].
    + destruct H1 as [H1|H1]; [left|now right]. apply OC; [|assumption]. intros x X. apply in_or_app. now right.
  - split; [|apply deases_nd]. destruct H as (A1 & A2 & A3 & A4). apply arguments_ease; try assumption; cbn.
    + eapply f2_map; [eassumption|]. intros x y X (Y1 & Y2). unfold pkid. cbn. rewrite Y1. split; [reflexivity|]. split; [reflexivity|]. split; [reflexivity|]. apply C; [apply in_or_app; left; now apply in_map|exact Y2].
    + destruct H1 as [H1| ->]; [left|now right]. apply OC; [|assumption]. intros x X. apply in_or_app. right. apply in_or_app. now left.
    + destruct H2 as [H2|(-> & H2)]; [left|now right]. apply OC; [|assumption]. intros x X. apply in_or_app. right. apply in_or_app. now right.
  - split; [|apply deases_nd]. destruct H as (A1 & A2 & A3 & A4). apply dataclass_args_ease; try assumption; cbn.
    + eapply f2_map; [eassumption|]. intros x y X (Y1 & Y2). unfold dkid. cbn. rewrite Y1. do 5 (split; [reflexivity|]). apply C; [apply in_or_app; left; now apply in_map|exact Y2].
    + destruct H1 as [H1|H1]; [left|now right]. apply OC; [|assumption]. intros x X. apply in_or_app. now right.
  - split; [|apply deases_nd]. apply model_ease. eapply k_ease, CV; [now left|eassumption].
  - split; [|apply deases_nd]. apply dataclass_ease; [assumption|]. eapply k_ease, CV; [now left|eassumption].
  - cbn [eval]. split; [apply (k_ease _ _ (ck_v _ _ _ (RK k)))|apply deases_weaken, (ck_d _ _ _ (RK k))].
Qed.
End All.

(** ** Definitions *)
Section Defs.
Variable E : env.
Variables defs defs' : nat -> option schema.
Variable U : nat -> Prop.
Hypothesis FU : e_wd_fuel E <> 0.
Hypothesis LD : looser_defs U defs defs'.
Hypothesis OD : forall k d, defs k = Some d -> everywhere orderly d.
Lemma refs_same fuel : forall depth k, U k -> refs E defs fuel depth k = refs E defs' fuel depth k.
Proof.
  destruct LD as [LU _]. induction fuel as [|fuel IH]; intros depth k UK; cbn [refs]; [reflexivity|]. destruct (LU k UK) as [D RI]. rewrite D. destruct (defs k) as [sc|]; [|reflexivity].
  specialize (RI sc eq_refl).
  rewrite !(fun d => eval_same E (refs E defs fuel d) (refs E defs' fuel d) U (fun k X => IH d k X) sc RI). reflexivity.
Qed.
Lemma refs_kid fuel : forall depth k, ckid false (refs E defs fuel depth k) (refs E defs' fuel depth k).
Proof.
  induction fuel as [|fuel IH]; intros depth k.
  { cbn [refs]. split; [split| | |]; try (intros ? ? ? ? ? [=]); intros i s; try exact I; auto. }
  pose proof (refs_ne E defs OD (S fuel) depth k) as [N1 N2]. pose proof (refs_off E defs (S fuel) depth k) as [O1 O2].
  cut (eases (cv_validate (refs E defs (S fuel) depth k)) (cv_validate (refs E defs' (S fuel) depth k)) /\ deases false (cv_default (refs E defs (S fuel) depth k)) (cv_default (refs E defs' (S fuel) depth k))).
  { intros [A B]. split; [split| | |]; assumption. }
  clear N1 N2 O1 O2. cbn [refs]. destruct LD as [_ LK]. destruct (defs k) as [sc|] eqn:D.
  2:{ split; intros ? ? ? ? ? [=]. }
  destruct (LK _ _ D) as (sc' & -> & L). 
  assert (V : forall d, eases (cv_validate (eval E (refs E defs fuel d) sc)) (cv_validate (eval E (refs E defs' fuel d) sc')) /\ deases false (cv_default (eval E (refs E defs fuel d) sc)) (cv_default (eval E (refs E defs' fuel d) sc'))).
  { intros d. apply (eval_kid E _ _ U FU (IH d) (refs_same fuel d) _ _ _ L (OD _ _ D)). }
  split; [|apply V]. intros i s a t O. cbn [cv_validate]. cbv zeta. destruct i; try (destruct (_ <=? _); [easy|]); apply V; go.
Qed.
Lemma run_loose fuel n sc sc' i s a t : looser U n sc sc' -> everywhere orderly sc -> off s -> run E defs fuel sc i s = (VOk a, t) -> run E defs' fuel sc' i s = (VOk a, t).
Proof.
  intros L W O. unfold run. apply (proj1 (eval_kid E _ _ U FU (refs_kid fuel 0) (refs_same fuel 0) _ _ _ L W)), O.
Qed.
End Defs.
