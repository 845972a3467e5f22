(** The main induction: what is written is read back. *)
From Coq Require Import List NArith ZArith Bool Permutation Lia.
From Verif Require Import Base Utf8 Float64 IntParse IntParseProps Numbers BytesCodec BytesCodecSpec BytesCodecProps Decimal Values VState LookupKey Collections Child Inputs Scalars Wrappers Tuple ModelFields TypedDict Assign Classes Interp InterpSpec InterpProofs ConformSpec ConformProofs4 ConformProofs7 StableSpec StableProofs StableProofs2 StableProofs3 StableProofs4 NumbersProofs RoundTripSpec RoundTripForward RoundTripForward2.
From Verif Require NumbersSpec Filter SerBase Ser.
From Verif Require Import RoundTripSer RoundTripOut RoundTripProofs RoundTripProofs2.
Import ListNotations.
Open Scope nat_scope.

Section Main.
Variable E : env.
Variable defs : nat -> option schema.
Variable SE : SerBase.env.
Variables (ba : option bool) (rt : bool) (vba vbn : option bool) (js : bool).
Notation pair := (pair defs E ba rt vba vbn js).
Notation conf := (conforms (unseen E) defs false).
Notation neat := (neat js ba rt).
Notation plain := (plain (e_max_digits E)).
Notation out := (out js).
Notation gives := (gives vba vbn).
Hypothesis DP : definitions_pair defs E ba rt vba vbn js (SerBase.e_def SE).
Hypothesis wd : 0 < e_wd_fuel E.

Definition read_back n sc v i : Prop :=
  forall fuel depth, n < fuel -> (js = false -> depth + n <= guard_limit) -> gives (equal v) (cv_validate (eval E (refs E defs fuel depth) sc)) i.
Definition goal n sc : Prop := forall se, pair sc se -> forall v x i, plain v -> conf sc v -> neat x -> out (Ser.build SE (Ser.levels SE n) se) v x i ->
  unclassed i /\ (solid defs sc -> is_none_input i = true -> v = PNone) /\ read_back n sc v i.

(** ** Leaves *)
Lemma read_eq n sc v i : (forall ref, gives (eq v) (cv_validate (eval E ref sc)) i) -> read_back n sc v i.
Proof. intros H fuel depth _ _. apply (gives_impl _ _ (eq v)); [intros y <-; constructor|apply H]. Qed.
Ltac leaf := split; [destruct js; reflexivity || exact I|]; split; [intros _; destruct js; discriminate|]; apply read_eq; intros ref; cbn [eval no_default cv_validate].
Lemma goal_leaf n sc : match sc with SNone | SBool _ | SInt _ _ | SFloat _ _ | SStr _ | SBytes _ => True | _ => False end -> goal n sc.
Proof.
  intros LF se P v x i PL C NE O. destruct sc; try contradiction LF; inversion P; subst se; subst; cbn [Ser.build] in O.
  - inversion C; subst. apply out_none in O. subst i. split; [destruct js; reflexivity || exact I|]. split; [reflexivity|]. apply read_eq. intros ref. cbn [eval no_default cv_validate]. apply none_gives. now destruct js.
  - inversion C; subst. apply out_bool in O. subst i. leaf. apply bool_gives. intros st. destruct js; cbn; eauto.
  - inversion C; subst. apply out_int in O. subst i. leaf. apply (int_gives _ _ _ _ _ _ _ (if js then number_int z else EPy z)); auto; [destruct js; [apply number_int_val|reflexivity]|]. intros st. destruct js; cbn; eauto.
  - inversion C; subst. inversion PL; subst. apply out_float in O.
    assert (O' : i = if js then IJson (JFloat f) else IPy (PFloat f)).
    { destruct js; [|exact O]. subst i. f_equal. unfold Ser.float_js. destruct (Ser.nonfinite f) eqn:NF; [|reflexivity].
      match goal with K : true = true -> _ |- _ => destruct (K eq_refl) as [->|K2]; [reflexivity|] end.
      match goal with K : floats_valid _ _ -> _ , B : bounds_fine _ |- _ => destruct (K ltac:(split; assumption)) as [[X|X] _] end; [congruence|].
      exfalso. clear - NF X. unfold Ser.nonfinite in NF. destruct f as [| | |]; try discriminate. }
    clear O. subst i. leaf. apply float_gives; auto. intros st. destruct js; cbn; eauto.
  - inversion C; subst. match goal with K : case_kept _ |- _ => pose proof K as [K1 K2]; rewrite K1, K2 in * end. inversion PL; subst. apply out_str in O; [|assumption]. subst i. leaf. apply str_gives; auto. intros st co. destruct js; cbn; eauto.
  - inversion C; subst. inversion PL; subst; try discriminate. cbn in *. match goal with K : PBytes _ = PBytes _ |- _ => injection K as -> end. apply (out_bytes js rt ba) in O; [|exact NE].
    destruct js eqn:J.
    + destruct O as (t & -> & B). split; [exact I|]. split; [discriminate|]. apply read_eq. intros ref. cbn [eval no_default cv_validate]. apply bytes_gives; [assumption|]. intros st. cbn.
      match goal with K : true = true -> bc_mode _ = _ |- _ => rewrite (K eq_refl) end. unfold in_deserialize. rewrite (C53_bytes_roundtrip _ _ _ ltac:(eassumption) B). cbn. eauto.
    + subst i. split; [reflexivity|]. split; [discriminate|]. apply read_eq. intros ref. cbn [eval no_default cv_validate]. apply bytes_gives; [assumption|]. intros st. cbn. eauto.
Qed.

(** ** Fields *)
Lemma default_none fuel depth sc : no_default_for defs sc -> 0 < fuel -> forall l s, cv_default (eval E (refs E defs fuel depth) sc) l s = (VOk None, s).
Proof.
  assert (G : forall ref sc, without_default sc -> forall l s, cv_default (eval E ref sc) l s = (VOk None, s)).
  { intros ref c W l s. destruct c; try reflexivity; [|destruct W]. cbn in W. subst. reflexivity. }
  intros N F l s. destruct sc; try (apply G; exact N). destruct N as (d & D & W). destruct fuel as [|fuel]; [lia|]. cbn [eval refs]. rewrite D. cbn [cv_default]. now apply G.
Qed.
Lemma nodup_snd A (l : list (finfo * A)) f g a b : NoDup (map (fun f => fi_name (fst f)) l) -> In (f, a) l -> In (g, b) l -> fi_name f = fi_name g -> a = b.
Proof.
  induction l as [|[h c] l IH]; [easy|]. cbn. intros ND. inversion ND as [|? ? N1 N2]; subst. intros [Q1|J1] [Q2|J2] Q; [congruence| | |now apply IH].
  - injection Q1 as -> ->. exfalso. apply N1. rewrite Q. apply (in_map (fun f => fi_name (fst f))) in J2. exact J2.
  - injection Q2 as -> ->. exfalso. apply N1. rewrite <- Q. apply (in_map (fun f => fi_name (fst f))) in J1. exact J1.
Qed.
Lemma assoc_map2 A B (g : A -> B) k (l : list (str * A)) : assoc k (map (fun e => (fst e, g (snd e))) l) = match assoc k l with Some a => Some (g a) | None => None end.
Proof. rewrite assoc_map. now destruct (assoc k l). Qed.

Definition reads n (fields : list (finfo * schema)) (name : str) (v : pyval) (i : input) : Prop := forall f sc, In (f, sc) fields -> fi_name f = name -> read_back n sc v i.
Lemma fields_rows n c fields sfs mode ex comp d x i : (comp = [] \/ rt = true) -> mode <> SerBase.ModelExtra -> fields_agree ba vba vbn pair c fields sfs ->
  (forall f sc, In (f, sc) fields -> goal n sc) -> distinct fst d -> (forall k v, In (k, v) d -> plain k /\ plain v) ->
  (forall k v, In (k, v) d -> exists f sc, In (f, sc) fields /\ k = PStr (fi_name f) /\ conf sc v) -> neat x ->
  out (Ser.build SE (Ser.levels SE n) (SerBase.SerFields mode sfs ex comp)) (PDict d) x i ->
  exists kf rows, rec_obj js rows i /\ NoDup (map kf (map (fun f => fi_name (fst f)) fields)) /\
    Forall2 (row_of kf (map (fun f => fi_name (fst f)) fields) (reads n fields)) d rows /\
    forall f sc, In (f, sc) fields -> exists look, collection_select (fi_keys f) (unwrap_or (or_else vba (fo_by_alias c)) true) (unwrap_or (or_else vbn (fo_by_name c)) false) = BOk look /\
      finds (map kf (map (fun f => fi_name (fst f)) fields)) (kf (fi_name f)) look.
Proof.
  intros NC MO (ND & kf & NK & AG) IH D PL CF NE O. cbn [Ser.build] in O.
  set (sf := map (fun kf => (fst kf, Ser.map_field (Ser.build SE (Ser.levels SE n)) (snd kf))) sfs) in *.
  assert (SF : forall f sc, In (f, sc) fields -> exists g s, pair sc s /\ forallb scalar (fi_name f) = true /\ assoc (fi_name f) sf = Some (Ser.map_field (Ser.build SE (Ser.levels SE n)) g) /\
    SerBase.f_ser (Ser.map_field (Ser.build SE (Ser.levels SE n)) g) = Some (Ser.build SE (Ser.levels SE n) s) /\ forall y, neat y -> Ser.out_key (fi_name f) (Ser.map_field (Ser.build SE (Ser.levels SE n)) g) y = kf (fi_name f)).
  { intros f sc J. destruct (AG f sc J) as (g & s & look & A1 & A2 & A3 & A4 & A5 & _). exists g, s. split; [exact A3|]. split; [exact A4|]. split; [unfold sf; now rewrite assoc_map2, A1|]. split; [cbn; now rewrite A2|].
    intros y NY. rewrite A5. exact (out_key_neat js rt ba _ _ _ NY). }
  apply (out_fields SE js rt ba) in O; [|destruct NC as [->|NC]; [now left|now right]|exact MO|exact NE| |].
  - destruct O as (rows & y & RO & NY & F). exists kf, rows. split; [exact RO|]. rewrite map_map. split; [exact NK|]. split; [|intros f sc J; destruct (AG f sc J) as (g & s & look & _ & _ & _ & _ & _ & A6 & A7); now exists look].
    assert (FI : forall kv row, In kv d -> (exists n0 f s, known sf kv n0 f s /\ fst row = Ser.out_key n0 f y /\ out s (snd kv) y (snd row)) -> row_of kf (map (fun f => fi_name (fst f)) fields) (reads n fields) kv row).
    { intros [k v] [rk ri] J (nm & f' & s' & (K1 & K2 & K3 & K4) & RK & OO). cbn [fst snd] in *. destruct (CF k v J) as (f & sc & JF & -> & CV). injection K1 as <-.
      destruct (SF f sc JF) as (g & s & P1 & P2 & P3 & P4 & P5). rewrite P3 in K3. injection K3 as <-. rewrite P4 in K4. injection K4 as <-. rewrite (P5 y NY) in RK.
      exists (fi_name f). split; [reflexivity|]. split; [apply (in_map (fun f => fi_name (fst f))) in JF; exact JF|]. split; [exact RK|]. cbn. intros f2 sc2 J2 N2. assert (sc2 = sc) by (eapply nodup_snd; eauto). subst sc2.
      apply (IH f sc JF s P1 v y ri); auto. now apply (PL _ v J). }
    clear - F FI. induction F as [|kv row d rows H F IHF]; constructor; [apply FI; [now left|exact H]|]. apply IHF. intros; apply FI; [now right|assumption].
  - intros [k v] J. destruct (CF k v J) as (f & sc & JF & -> & CV). destruct (SF f sc JF) as (g & s & P1 & P2 & P3 & P4 & P5). eexists (fi_name f), _, _. split; [reflexivity|]. split; [exact P2|]. split; [exact P3|exact P4].
  - intros _ y NY. set (nm := fun kv : pyval * pyval => match fst kv with PStr n => n | _ => [] end).
    assert (FR : Forall2 (row_of kf (map (fun f => fi_name (fst f)) fields) (fun _ _ _ => True)) d (map (fun kv => (kf (nm kv), IPy PNone)) d)).
    { apply F2_map_r. clear - CF. induction d as [|[k v] d IHd]; constructor; [|apply IHd; intros; apply CF; now right]. destruct (CF k v (or_introl eq_refl)) as (f & sc & JF & -> & _). exists (fi_name f). repeat split. apply (in_map (fun f => fi_name (fst f))) in JF; exact JF. }
    exists (map (fun kv => kf (nm kv)) d). split.
    + apply rows_nodup in FR; [|now rewrite map_map|exact D]. now rewrite map_map in FR.
    + apply F2_map_r. clear - CF SF NY. induction d as [|[k v] d IHd]; constructor; [|apply IHd; intros; apply CF; now right]. destruct (CF k v (or_introl eq_refl)) as (f & sc & JF & -> & _).
      destruct (SF f sc JF) as (g & s & P1 & P2 & P3 & P4 & P5). eexists (fi_name f), _. split; [reflexivity|]. split; [exact P3|]. now rewrite (P5 y NY).
Qed.

Lemma row_present n c fields d rows i kf fuel depth md f sc xv : n < fuel -> (js = false -> depth + n <= guard_limit) ->
  rec_obj js rows i -> NoDup (map kf (map (fun f => fi_name (fst f)) fields)) -> distinct fst d ->
  Forall2 (row_of kf (map (fun f => fi_name (fst f)) fields) (reads n fields)) d rows ->
  (exists look, collection_select (fi_keys f) (unwrap_or (or_else vba (fo_by_alias c)) true) (unwrap_or (or_else vbn (fo_by_name c)) false) = BOk look /\ finds (map kf (map (fun f => fi_name (fst f)) fields)) (kf (fi_name f)) look) ->
  md = view_of js (e_repr E) i -> In (f, sc) fields -> dict_get (PStr (fi_name f)) d = Some xv -> forall vs a b,
  present vba vbn equal (mk_fields c vs a b) md kf (mk_field f (eval E (refs E defs fuel depth) sc)) xv.
Proof.
  intros NF DL RO NK D F (look & SEL & FI) -> J G vs a b. assert (JN : In (fi_name f) (map (fun f => fi_name (fst f)) fields)) by (apply (in_map (fun f => fi_name (fst f))) in J; exact J).
  pose proof (rows_get kf _ NK (reads n fields) d rows (fi_name f) F D JN) as RG. rewrite G in RG. destruct RG as (vi & AS & RD).
  destruct (view_get js (e_repr E) rows i _ _ look RO (rows_nodup _ _ NK _ _ _ F D) (rows_names _ _ _ _ _ F) FI) as (p & PF & GET). rewrite AS in GET.
  exists look, p, vi. split; [exact SEL|]. split; [exact GET|]. split; [exact PF|]. cbn. apply (RD f sc J eq_refl); auto.
Qed.
Lemma row_absent n c fields d rows i kf fuel depth md f sc : n < fuel ->
  rec_obj js rows i -> NoDup (map kf (map (fun f => fi_name (fst f)) fields)) -> distinct fst d ->
  Forall2 (row_of kf (map (fun f => fi_name (fst f)) fields) (reads n fields)) d rows ->
  (exists look, collection_select (fi_keys f) (unwrap_or (or_else vba (fo_by_alias c)) true) (unwrap_or (or_else vbn (fo_by_name c)) false) = BOk look /\ finds (map kf (map (fun f => fi_name (fst f)) fields)) (kf (fi_name f)) look) ->
  md = view_of js (e_repr E) i -> In (f, sc) fields -> dict_get (PStr (fi_name f)) d = None -> fi_required f = false -> no_default_for defs sc -> forall vs a b,
  absent vba vbn (mk_fields c vs a b) md (mk_field f (eval E (refs E defs fuel depth) sc)).
Proof.
  intros NF RO NK D F (look & SEL & FI) -> J G RQ ND vs a b. assert (JN : In (fi_name f) (map (fun f => fi_name (fst f)) fields)) by (apply (in_map (fun f => fi_name (fst f))) in J; exact J).
  pose proof (rows_get kf _ NK (reads n fields) d rows (fi_name f) F D JN) as RG. rewrite G in RG.
  destruct (view_get js (e_repr E) rows i _ _ look RO (rows_nodup _ _ NK _ _ _ F D) (rows_names _ _ _ _ _ F) FI) as (p & PF & GET). rewrite RG in GET.
  exists look. split; [exact SEL|]. split; [exact GET|]. split; [exact RQ|]. cbn [f_cv mk_field]. apply default_none; [exact ND|lia].
Qed.
Lemma field_names ref fields : map f_name (map (fun fi => mk_field (fst fi) (eval E ref (snd fi))) fields) = map (fun f => fi_name (fst f)) fields.
Proof. rewrite map_map. reflexivity. Qed.
Lemma rows_equal d names m : NoDup names -> distinct fst d -> (forall k v, In (k, v) d -> exists n, k = PStr n /\ In n names) -> same_rows equal (picked d names) m -> equal (PDict d) (PDict m).
Proof. intros ND D K [A B]. apply (EqDict d (picked d names) m); auto. now apply picked_perm. Qed.
Lemma conf_fields_names (fields : list (finfo * schema)) d : (forall k v, In (k, v) d -> exists f sc, In (f, sc) fields /\ k = PStr (fi_name f) /\ conf sc v) ->
  forall k v, In (k, v) d -> exists n, k = PStr n /\ In n (map (fun f => fi_name (fst f)) fields).
Proof. intros H k v J. destruct (H k v J) as (f & sc & JF & -> & _). exists (fi_name f). split; [reflexivity|]. apply (in_map (fun f => fi_name (fst f))) in JF. exact JF. Qed.

Lemma goal_typed_dict n c fields ex0 : (forall f sc, In (f, sc) fields -> goal n sc) -> goal n (STypedDict c fields ex0).
Proof.
  intros IH se P v x i PL C NE O. inversion P as [| | | | | | | | | | | | |? ? sfs mode ex comp EX MO AG RQ NC| | |]; subst. inversion C; subst. inversion PL as [| | | | | | | | | |? PD|]; subst.
  assert (CF : forall k v, In (k, v) d -> exists f sc, In (f, sc) fields /\ k = PStr (fi_name f) /\ conf sc v) by (intros k v J; match goal with K : forall k v, In (k, v) d -> _ \/ _ |- _ => destruct (K k v J) as [X|(X & _)] end; [exact X|contradiction]).
  pose proof (proj1 AG) as ND.
  match goal with K : distinct fst d |- _ => rename K into D end.
  destruct (fields_rows n c fields sfs mode ex comp d x i NC MO AG IH D PD CF NE O) as (kf & rows & RO & NK & F & LK).
  split; [eapply rec_unclassed; eauto|]. split; [intros _ NI; erewrite rec_not_none in NI by eauto; discriminate|].
  intros fuel depth NF DL. cbn [eval no_default cv_validate option_map].
  eapply gives_impl; [|eapply (typed_dict_gives vba vbn equal _ (view_of js (e_repr E) i) i d kf)].
  - cbn [fc_fields mk_fields]. rewrite field_names. intros y (m & -> & SR). exact (rows_equal d _ m ND D (conf_fields_names fields d CF) SR).
  - eapply view_dict; eauto.
  - eapply view_attr; eauto.
  - cbn [fc_fields mk_fields]. apply Forall_forall. intros fld J. apply in_map_iff in J. destruct J as ([f sc] & <- & J). cbn [fst snd f_name mk_field].
    destruct (dict_get (PStr (fi_name f)) d) as [xv|] eqn:G; [eapply row_present; eauto|].
    destruct (fi_required f) eqn:RF.
    + exfalso. match goal with K : false = false -> _ |- _ => destruct (K eq_refl f sc J RF) as [X|X] end.
      * apply in_map_iff in X. destruct X as ([k v] & Q & X). cbn in Q. subst k. rewrite (get_in _ _ _ D X) in G. discriminate.
      * destruct AG as (_ & kf' & _ & AG). destruct (AG f sc J) as (g & s & look & _ & _ & PS & _). exact (pair_kept E defs SE ba rt vba vbn js DP _ X _ PS).
    + destruct (RQ f sc J) as [X|X]; [congruence|]. eapply row_absent; eauto.
  - cbn [fc_fields mk_fields]. now rewrite field_names.
  - destruct (view_iter js (e_repr E) rows i RO) as (es & ES & H). exists es. split; [exact ES|]. intros e J. destruct (H e J) as (key & kl & val & k & -> & KS & JK).
    destruct (rows_in _ _ _ _ _ F _ JK) as (nm & xv & JD & ->). destruct (CF _ _ JD) as (f & sc & JF & [= ->] & _).
    exists key, kl, val, (mk_field f (eval E (refs E defs fuel depth) sc)), xv. split; [reflexivity|]. split; [exact KS|]. split; [apply in_map_iff; now exists (f, sc)|]. cbn. now apply get_in.
Qed.

Lemma no_instance subclass cls origin i : unclassed i -> instance_input subclass cls origin i = None.
Proof. destruct i as [w| | |]; try reflexivity. cbn. intros U. unfold is_instance. rewrite U. now destruct origin. Qed.
Lemma goal_model n m sc : (forall c fields, sc = SModelFields c fields None None -> forall f s, In (f, s) fields -> goal n s) -> goal n sc -> goal n (SModel m sc).
Proof.
  intros IHF IH se P v x i PL C NE O. inversion P as [| | | | | | | | | | | | | |? c fields sfs cls ex comp RT CI PI EX AG NC|? ? cls s RT CI PI PS|]; subst.
  - assert (exists d fs fs', v = model_inst (mo_cls m) (PDict d) PNone fs' /\ conf (SModelFields c fields None None) (PTuple [PDict d; PNone; PSet fs])) as (d & fs & fs' & -> & CF).
    { inversion C; subst; try congruence; try discriminate. match goal with K : after_init _ _ _ |- _ => rewrite PI in K; cbn in K; subst end.
      match goal with K : conf _ (PTuple _) |- _ => pose proof K as K0; inversion K; subst end. match goal with K : fo_extra c <> ExtraAllow -> _ |- _ => specialize (K EX); subst end. eauto. }
    assert (PD : plain (PDict d)) by (inversion PL as [| | | | | | | | | | |? ? PA]; subst; eapply PA; left; reflexivity).
    inversion PD as [| | | | | | | | | |? PD'|]; subst. inversion CF; subst. pose proof (proj1 AG) as ND.
    match goal with K : distinct fst d |- _ => rename K into D end.
    match goal with K : forall k v, In (k, v) d -> _ |- _ => rename K into CD end.
    apply (out_model SE js rt ba) in O; [|exact NE]. destruct O as (y & NY & O).
    destruct (fields_rows n c fields sfs SerBase.SimpleDict ex comp d y i NC ltac:(discriminate) AG (IHF c fields eq_refl) D PD' CD NY O) as (kf & rows & RO & NK & F & LK).
    pose proof (rec_unclassed _ _ _ RO) as UN. split; [exact UN|]. split; [intros _ NI; erewrite rec_not_none in NI by eauto; discriminate|].
    intros fuel depth NF DL s C0. cbn [eval no_default cv_validate option_map]. unfold model_validate. rewrite (no_instance _ _ _ _ UN). unfold model_construct. rewrite CI, RT.
    match goal with |- context [model_fields_validate ?cc ?vv i ?s0] => destruct (model_fields_gives vba vbn equal cc (view_of js (e_repr E) i) i d kf vv) with (s := s0) as (r & s1 & RV & (mm & gs & -> & SR) & C1) end.
    + intros st fa. eapply view_model; eauto.
    + eapply view_attr; eauto.
    + exact EX.
    + cbn [fc_fields mk_fields]. apply Forall_forall. intros fld J. apply in_map_iff in J. destruct J as ([f sc] & <- & J). cbn [fst snd f_name mk_field].
      destruct (dict_get (PStr (fi_name f)) d) as [xv|] eqn:G; [exists xv; split; [reflexivity|]; eapply row_present; eauto|]. exfalso.
      match goal with K : forall f sc, In (f, sc) fields -> _ \/ omittable _ _ |- _ => destruct (K f sc J) as [X|X] end.
      * apply in_map_iff in X. destruct X as ([k v] & Q & X). cbn in Q. subst k. rewrite (get_in _ _ _ D X) in G. discriminate.
      * destruct AG as (_ & kf' & _ & AG). destruct (AG f sc J) as (g & s' & look & _ & _ & PS & _). exact (pair_kept E defs SE ba rt vba vbn js DP _ X _ PS).
    + cbn [fc_fields mk_fields]. now rewrite field_names.
    + destruct (view_iter js (e_repr E) rows i RO) as (es & ES & H). exists es. split; [exact ES|]. apply Forall_forall. intros e J. destruct (H e J) as (key & kl & val & k & -> & KS & JK).
      exists key, kl, val, k. split; [reflexivity|]. split; [exact KS|]. cbn [fc_fields mk_fields]. rewrite map_map. cbn. apply (rows_names _ _ _ _ _ F) in JK. now rewrite map_map in JK.
    + now apply fresh_floor.
    + cbn [fc_fields mk_fields] in SR. rewrite field_names in SR. rewrite RV. cbn [build_model unwrap_or]. rewrite PI. cbn [call_post_init].
      eexists _, s1. split; [reflexivity|]. split; [|exact C1]. apply EqModel. exact (rows_equal d _ mm ND D (conf_fields_names fields d CD) SR).
  - assert (exists o fs, v = root_inst (mo_cls m) o fs /\ conf sc o) as (o & fs & -> & CO).
    { inversion C; subst; try congruence; try discriminate. match goal with K : after_init _ _ _ |- _ => rewrite PI in K; cbn in K; subst end. eauto. }
    assert (PD : plain o) by (inversion PL as [| | | | | | | | | | |? ? PA]; subst; eapply PA; right; left; reflexivity).
    apply (out_root SE js rt ba) in O; [|exact NE]. destruct O as (y & NY & O).
    destruct (IH s PS o y i PD CO NY O) as (UN & _ & RB). split; [exact UN|]. split; [intros SO; inversion SO; subst; [contradiction|congruence]|].
    intros fuel depth NF DL s0 C0. cbn [eval no_default cv_validate]. unfold model_validate. rewrite (no_instance _ _ _ _ UN). unfold model_construct. rewrite CI, RT. unfold rebind.
    pose proof (fresh_floor _ _ Strict _ C0) as C1. destruct (RB fuel depth NF DL _ (fresh_field _ _ (Some root_name) _ C1)) as (w & s1 & -> & EQ & C2).
    rewrite PI. cbn [call_post_init]. eexists _, _. split; [reflexivity|]. split; [now apply EqRoot|]. now apply fresh_back.
Qed.
End Main.
