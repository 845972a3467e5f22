From Coq Require Import List NArith ZArith Bool Lia.
From Verif Require Import Base Float64 IntParse Numbers BytesCodec Decimal Utf8 Values VState LookupKey Collections Child Inputs Scalars Literal LiteralSpec.
Import ListNotations.
Open Scope nat_scope.

Lemma fits_iff : forall z, fits_i64 z = true <-> (- 2 ^ 63 <= z < 2 ^ 63)%Z.
Proof. intros z. unfold fits_i64. rewrite andb_true_iff, Z.leb_le, Z.ltb_lt. tauto. Qed.

(** The dicts from values to positions. *)
Lemma pd_get_in : forall d v id, pd_get v d = Some id -> exists k, In (k, id) d /\ py_eq k v = true.
Proof.
  induction d as [|[k i] d IH]; intros v id H; cbn [pd_get] in H; [discriminate|].
  destruct (py_eq k v) eqn:E; [injection H as ->; exists k; split; [left; reflexivity|exact E]|].
  apply IH in H. destruct H as (k' & ? & ?). exists k'. split; [right|]; assumption.
Qed.
Lemma pd_get_some : forall d v k id, In (k, id) d -> py_eq k v = true -> exists id', pd_get v d = Some id'.
Proof.
  induction d as [|[k0 i0] d IH]; intros v k id H E; [destruct H|]. cbn [pd_get].
  destruct (py_eq k0 v) eqn:E0; [eauto|]. destruct H as [H|H]; [injection H as -> ->; congruence|eauto].
Qed.

(** Dict [d] holds the expected values [l] that satisfy [P]. *)
Definition holds (P : pyval -> Prop) (l : list pyval) (d : list (pyval * nat)) : Prop :=
  (forall k id, In (k, id) d -> In k l /\ exists e, nth_error l id = Some e /\ (e = k \/ py_eq k e = true)) /\
  (forall e, In e l -> P e -> exists k id, In (k, id) d /\ (k = e \/ py_eq k e = true)).

Lemma nth_app_old : forall {A} (l : list A) x n e, nth_error l n = Some e -> nth_error (l ++ [x]) n = Some e.
Proof. intros A l x n e H. rewrite nth_error_app1; [exact H|]. apply nth_error_Some. congruence. Qed.
Lemma nth_app_new : forall {A} (l : list A) x, nth_error (l ++ [x]) (length l) = Some x.
Proof. intros A l x. rewrite nth_error_app2; [|lia]. rewrite Nat.sub_diag. reflexivity. Qed.

Lemma pd_set_in : forall d k id k0 id0, In (k0, id0) (pd_set k id d) ->
  (k0, id0) = (k, id) \/ In (k0, id0) d \/ (id0 = id /\ py_eq k0 k = true /\ exists i, In (k0, i) d).
Proof.
  induction d as [|[k1 i1] d IH]; intros k id k0 id0 H; cbn [pd_set] in H.
  - destruct H as [H|[]]. left; congruence.
  - destruct (py_eq k1 k) eqn:E.
    + destruct H as [H|H].
      * injection H as <- <-. right; right. split; [reflexivity|]. split; [exact E|]. exists i1. left. reflexivity.
      * right; left; right; exact H.
    + destruct H as [H|H].
      * right; left; left; exact H.
      * apply IH in H. destruct H as [H|[H|(H1 & H2 & i & H3)]]; [left; exact H|right; left; right; exact H|].
        right; right. split; [exact H1|]. split; [exact H2|]. exists i. right. exact H3.
Qed.
Lemma pd_set_has : forall d k id, exists k0, In (k0, id) (pd_set k id d) /\ (k0 = k \/ py_eq k0 k = true).
Proof.
  induction d as [|[k1 i1] d IH]; intros k id; cbn [pd_set].
  - exists k. split; [left; reflexivity|left; reflexivity].
  - destruct (py_eq k1 k) eqn:E; [exists k1; split; [left; reflexivity|right; exact E]|].
    destruct (IH k id) as (k0 & H & H'). exists k0. split; [right|]; assumption.
Qed.
Lemma pd_set_keeps : forall d k id k0 i0, In (k0, i0) d -> exists i, In (k0, i) (pd_set k id d).
Proof.
  induction d as [|[k1 i1] d IH]; intros k id k0 i0 H; [destruct H|]. cbn [pd_set]. destruct H as [H|H].
  - injection H as -> ->. destruct (py_eq k0 k); eexists; left; reflexivity.
  - destruct (py_eq k1 k); [eexists; right; exact H|]. destruct (IH k id k0 i0 H) as [i Hi]. exists i. right. exact Hi.
Qed.

Lemma holds_set : forall P l d k, holds P l d -> holds P (l ++ [k]) (pd_set k (length l) d).
Proof.
  intros P l d k [H1 H2]. split.
  - intros k0 id0 H. apply pd_set_in in H. destruct H as [H|[H|(-> & E & i & H)]].
    + injection H as -> ->. split; [apply in_or_app; right; left; reflexivity|]. exists k. split; [apply nth_app_new|left; reflexivity].
    + destruct (H1 _ _ H) as (A & e & B & C). split; [apply in_or_app; left; exact A|]. exists e. split; [apply nth_app_old, B|exact C].
    + destruct (H1 _ _ H) as (A & _). split; [apply in_or_app; left; exact A|]. exists k. split; [apply nth_app_new|right; exact E].
  - intros e He Pe. apply in_app_or in He. destruct He as [He|[<-|[]]].
    + destruct (H2 e He Pe) as (k0 & id & Hk & E). destruct (pd_set_keeps d k (length l) _ _ Hk) as [i Hi]. exists k0, i. split; assumption.
    + destruct (pd_set_has d k (length l)) as (k0 & Hk & E). exists k0, (length l). split; assumption.
Qed.
Lemma holds_skip : forall (P : pyval -> Prop) l d k, holds P l d -> ~ P k -> holds P (l ++ [k]) d.
Proof.
  intros P l d k [H1 H2] N. split.
  - intros k0 id0 H. destruct (H1 _ _ H) as (A & e & B & C). split; [apply in_or_app; left; exact A|]. exists e. split; [apply nth_app_old, B|exact C].
  - intros e He Pe. apply in_app_or in He. destruct He as [He|[<-|[]]]; [apply H2; assumption|contradiction].
Qed.

(** Where each expected value is stored. *)
Definition is_prim (v : pyval) : Prop :=
  match strip v with PBool _ => True | _ => match v with PInt z => fits_i64 z = true | PStr _ => True | _ => False end end.
Definition is_dict_kind (v : pyval) : Prop :=
  match v with PInt z => fits_i64 z = false | PStr _ => False | _ => hashable v = true end.
Definition is_value_kind (v : pyval) : Prop := hashable v = false.

Lemma prim_cases : forall v, is_prim v -> (exists b, strip v = PBool b) \/ (exists z, fits_i64 z = true /\ v = PInt z) \/ (exists t, v = PStr t).
Proof.
  intros v H. unfold is_prim in H. destruct (strip v) eqn:S; try (left; eexists; reflexivity); destruct v; try contradiction; eauto.
Qed.

Record inv (l : list pyval) (lk : lookup) : Prop := {
  i_true : forall id, lk_true lk = Some id -> exists e, nth_error l id = Some e /\ strip e = PBool true;
  i_false : forall id, lk_false lk = Some id -> exists e, nth_error l id = Some e /\ strip e = PBool false;
  i_true_c : lk_true lk = None -> forall e, In e l -> strip e <> PBool true;
  i_false_c : lk_false lk = None -> forall e, In e l -> strip e <> PBool false;
  i_int : forall z id, z_get z (lk_int lk) = Some id -> nth_error l id = Some (PInt z);
  i_int_c : forall z, fits_i64 z = true -> In (PInt z) l -> exists id, z_get z (lk_int lk) = Some id;
  i_int_n : lk_int lk <> [] -> exists z, fits_i64 z = true /\ In (PInt z) l;
  i_str : forall t id, assoc t (lk_str lk) = Some id -> nth_error l id = Some (PStr t);
  i_str_c : forall t, In (PStr t) l -> exists id, assoc t (lk_str lk) = Some id;
  i_dict : holds is_dict_kind l (lk_py_dict lk);
  i_prims : holds is_prim l (lk_prims lk);
  i_vals : forall k id, In (k, id) (lk_py_values lk) -> nth_error l id = Some k;
  i_vals_c : forall e, In e l -> is_value_kind e -> exists id, In (e, id) (lk_py_values lk) }.

Lemma inv_empty : inv [] lk_empty.
Proof. constructor; cbn; try discriminate; try contradiction; try congruence; try (split; intros; contradiction); intros; contradiction. Qed.

Lemma in_snoc : forall {A} (l : list A) x e, In e (l ++ [x]) <-> In e l \/ e = x.
Proof. intros A l x e. rewrite in_app_iff. cbn. intuition congruence. Qed.

Lemma inv_add : forall l lk k, inv l lk -> inv (l ++ [k]) (lk_add k (length l) lk).
Proof.
  intros l lk k I.
  (* the bool part *)
  assert (B : exists t f p, lk_add_bool k (length l) lk =
    {| lk_true := t; lk_false := f; lk_int := lk_int lk; lk_str := lk_str lk; lk_py_dict := lk_py_dict lk;
       lk_py_values := lk_py_values lk; lk_prims := p |} /\
    (forall id, t = Some id -> exists e, nth_error (l ++ [k]) id = Some e /\ strip e = PBool true) /\
    (forall id, f = Some id -> exists e, nth_error (l ++ [k]) id = Some e /\ strip e = PBool false) /\
    (t = None -> forall e, In e (l ++ [k]) -> strip e <> PBool true) /\
    (f = None -> forall e, In e (l ++ [k]) -> strip e <> PBool false) /\
    ((exists b, strip k = PBool b) /\ p = pd_set k (length l) (lk_prims lk) \/ (forall b, strip k <> PBool b) /\ p = lk_prims lk)).
  { destruct (strip k) eqn:S; unfold lk_add_bool; rewrite S.
    2:{ exists (if b then Some (length l) else lk_true lk), (if b then lk_false lk else Some (length l)), (pd_set k (length l) (lk_prims lk)).
      split; [reflexivity|]. split; [|split; [|split; [|split]]].
      - intros id H. destruct b.
        + injection H as <-. exists k. split; [apply nth_app_new|exact S].
        + destruct (i_true _ _ I id H) as (e & ? & ?). exists e. split; [apply nth_app_old|]; assumption.
      - intros id H. destruct b.
        + destruct (i_false _ _ I id H) as (e & ? & ?). exists e. split; [apply nth_app_old|]; assumption.
        + injection H as <-. exists k. split; [apply nth_app_new|exact S].
      - intros H e He. destruct b; [discriminate|]. apply in_snoc in He. destruct He as [He| ->]; [apply (i_true_c _ _ I H e He)|congruence].
      - intros H e He. destruct b; [|discriminate]. apply in_snoc in He. destruct He as [He| ->]; [apply (i_false_c _ _ I H e He)|congruence].
      - left. split; [exists b|]; reflexivity. }
    all: exists (lk_true lk), (lk_false lk), (lk_prims lk); split; [destruct lk; reflexivity|]; split; [|split; [|split; [|split]]];
      [intros id H; destruct (i_true _ _ I id H) as (e & ? & ?); exists e; split; [apply nth_app_old|]; assumption
      |intros id H; destruct (i_false _ _ I id H) as (e & ? & ?); exists e; split; [apply nth_app_old|]; assumption
      |intros H e He; apply in_snoc in He; destruct He as [He| ->]; [apply (i_true_c _ _ I H e He)|congruence]
      |intros H e He; apply in_snoc in He; destruct He as [He| ->]; [apply (i_false_c _ _ I H e He)|congruence]
      |right; split; [discriminate|reflexivity]]. }
  destruct B as (t & f & p & EB & H1 & H2 & H3 & H4 & HP).
  assert (OI : forall z id, z_get z (lk_int lk) = Some id -> nth_error (l ++ [k]) id = Some (PInt z)) by (intros; apply nth_app_old; eapply i_int; eassumption).
  assert (OS : forall u id, assoc u (lk_str lk) = Some id -> nth_error (l ++ [k]) id = Some (PStr u)) by (intros; apply nth_app_old; eapply i_str; eassumption).
  assert (ON : lk_int lk <> [] -> exists z, fits_i64 z = true /\ In (PInt z) (l ++ [k])).
  { intros N. destruct (i_int_n _ _ I N) as (z & ? & ?). exists z. split; [assumption|apply in_snoc; left; assumption]. }
  assert (OV : forall k0 id, In (k0, id) (lk_py_values lk) -> nth_error (l ++ [k]) id = Some k0) by (intros; apply nth_app_old; eapply i_vals; eassumption).
  assert (OIc : (forall z, fits_i64 z = true -> k <> PInt z) -> forall z, fits_i64 z = true -> In (PInt z) (l ++ [k]) -> exists id, z_get z (lk_int lk) = Some id).
  { intros N z F Hz. apply in_snoc in Hz. destruct Hz as [Hz|Hz]; [apply (i_int_c _ _ I); assumption|]. contradiction (N z F (eq_sym Hz)). }
  assert (OSc : (forall u, k <> PStr u) -> forall u, In (PStr u) (l ++ [k]) -> exists id, assoc u (lk_str lk) = Some id).
  { intros N u Hu. apply in_snoc in Hu. destruct Hu as [Hu|Hu]; [apply (i_str_c _ _ I); assumption|]. contradiction (N u (eq_sym Hu)). }
  assert (OVc : hashable k = true -> forall e, In e (l ++ [k]) -> is_value_kind e -> exists id, In (e, id) (lk_py_values lk)).
  { intros Hk e He V. apply in_snoc in He. destruct He as [He| ->]; [apply (i_vals_c _ _ I); assumption|]. unfold is_value_kind in V. congruence. }
  unfold lk_add. rewrite EB. cbn [lk_true lk_false lk_int lk_str lk_py_dict lk_py_values lk_prims].
  assert (OTHER : forall q, holds is_prim (l ++ [k]) q -> (forall z, fits_i64 z = true -> k <> PInt z) -> (forall u, k <> PStr u) ->
     (hashable k = true -> is_dict_kind k \/ True) -> (hashable k = false -> ~ is_dict_kind k) ->
     inv (l ++ [k]) (if hashable k
       then {| lk_true := t; lk_false := f; lk_int := lk_int lk; lk_str := lk_str lk; lk_py_dict := pd_set k (length l) (lk_py_dict lk);
               lk_py_values := lk_py_values lk; lk_prims := q |}
       else {| lk_true := t; lk_false := f; lk_int := lk_int lk; lk_str := lk_str lk; lk_py_dict := lk_py_dict lk;
               lk_py_values := lk_py_values lk ++ [(k, length l)]; lk_prims := q |})).
  { intros q HQ NI NS _ ND. destruct (hashable k) eqn:HK; constructor; cbn [lk_true lk_false lk_int lk_str lk_py_dict lk_py_values lk_prims]; auto.
    - apply holds_set, (i_dict _ _ I).
    - apply holds_skip; [apply (i_dict _ _ I)|auto].
    - intros k0 id H. apply in_snoc in H. destruct H as [H|H]; [auto|]. injection H as -> ->. apply nth_app_new.
    - intros e He V. apply in_snoc in He. destruct He as [He| ->].
      + destruct (i_vals_c _ _ I e He V) as [id Hid]. exists id. apply in_snoc. left. exact Hid.
      + exists (length l). apply in_snoc. right. reflexivity. }
  assert (HQ : ((exists b, strip k = PBool b) -> p = pd_set k (length l) (lk_prims lk)) /\ ((forall b, strip k <> PBool b) -> p = lk_prims lk)).
  { destruct HP as [[[b Hb] ->]|[N ->]]; split; intros H; auto; [contradiction (H b Hb)|destruct H as [b Hb]; contradiction (N b Hb)]. }
  assert (PB : (forall z, fits_i64 z = true -> k <> PInt z) -> (forall u, k <> PStr u) -> holds is_prim (l ++ [k]) p).
  { intros NI NS. destruct HP as [[[b Hb] ->]|[N ->]]; [apply holds_set, (i_prims _ _ I)|].
    apply holds_skip; [apply (i_prims _ _ I)|]. intros Hp. apply prim_cases in Hp.
    destruct Hp as [[b Hb]|[(z & F & Hz)|[u Hu]]]; [exact (N b Hb)|exact (NI z F Hz)|exact (NS u Hu)]. }
  destruct k as [|b|z|fl|u|bs|ls|ls|ls|ls|ls|c attrs|c v];
    try (apply OTHER; [apply PB; discriminate|discriminate|discriminate|auto|unfold is_dict_kind; congruence]).
  - destruct (fits_i64 z) eqn:F.
    + assert (EP : p = lk_prims lk) by (apply HQ; discriminate).
      constructor; cbn [lk_true lk_false lk_int lk_str lk_py_dict lk_py_values lk_prims]; auto.
      * intros z0 id H. cbn [z_get] in H. destruct (Z.eqb_spec z z0) as [->|NE]; [injection H as <-; apply nth_app_new|auto].
      * intros z0 F0 Hz. cbn [z_get]. destruct (Z.eqb_spec z z0) as [->|NE]; [eauto|].
        apply in_snoc in Hz. destruct Hz as [Hz|Hz]; [apply (i_int_c _ _ I); assumption|congruence].
      * intros _. exists z. split; [exact F|]. apply in_snoc. right. reflexivity.
      * apply OSc. discriminate.
      * apply holds_skip; [apply (i_dict _ _ I)|]. cbn. congruence.
      * rewrite EP. apply holds_set, (i_prims _ _ I).
    + apply OTHER; [apply PB| | |auto|]; try discriminate; intros z0 F0 E; injection E as <-; congruence.
  - assert (EP : p = lk_prims lk) by (apply HQ; discriminate).
    constructor; cbn [lk_true lk_false lk_int lk_str lk_py_dict lk_py_values lk_prims]; auto.
    + apply OIc. discriminate.
    + intros t0 id H. cbn [assoc] in H. destruct (str_eqb t0 u) eqn:E; [|auto].
      apply str_eqb_eq in E. subst. injection H as <-. apply nth_app_new.
    + intros t0 Hu. cbn [assoc]. destruct (str_eqb t0 u) eqn:E; [eauto|].
      apply in_snoc in Hu. destruct Hu as [Hu|Hu]; [apply (i_str_c _ _ I); assumption|].
      injection Hu as ->. rewrite str_eqb_refl in E. discriminate.
    + apply holds_skip; [apply (i_dict _ _ I)|]. cbn. tauto.
    + rewrite EP. apply holds_set, (i_prims _ _ I).
Qed.

Lemma inv_build_from : forall ks l lk, inv l lk -> inv (l ++ ks) (lk_build_from (length l) ks lk).
Proof.
  induction ks as [|k ks IH]; intros l lk I; cbn [lk_build_from]; [rewrite app_nil_r; exact I|].
  specialize (IH (l ++ [k]) _ (inv_add l lk k I)). rewrite <- app_assoc in IH. rewrite app_length in IH. cbn in IH.
  rewrite Nat.add_1_r in IH. exact IH.
Qed.
Lemma inv_build : forall ks, inv ks (lk_build ks).
Proof. intros ks. apply (inv_build_from ks [] lk_empty inv_empty). Qed.

(** ** Equality of literal values *)
Lemma py_eq_strip_l : forall a b, py_eq a b = py_eq (strip a) b.
Proof. induction a; intros b0; try reflexivity. cbn [strip]. rewrite <- IHa. reflexivity. Qed.

Lemma py_eq_bool : forall x v, py_eq (PBool x) v = match strip v with
  | PBool y => Bool.eqb x y | PInt y => (if x then 1 else 0) =? y | PFloat f => f_eq_Z f (if x then 1 else 0) | _ => false end%Z.
Proof. reflexivity. Qed.
Lemma py_eq_int : forall z v, py_eq (PInt z) v = match strip v with
  | PBool y => z =? (if y then 1 else 0) | PInt y => z =? y | PFloat f => f_eq_Z f z | _ => false end%Z.
Proof. reflexivity. Qed.

Lemma pep_eq : forall k e, pep586 k -> pep586 e -> py_eq k e = true -> forall v, py_eq k v = py_eq e v.
Proof.
  intros k e Hk He E v.
  destruct k as [|b|z|fl|u|bs|ls|ls|ls|ls|ls|c [|? ?]|c v0]; try destruct Hk;
    destruct e as [|b'|z'|fl'|u'|bs'|ls'|ls'|ls'|ls'|ls'|c' [|? ?]|c' v0']; try destruct He;
    try discriminate E; try reflexivity.
  - cbn in E. apply eqb_prop in E. subst. reflexivity.
  - cbn in E. apply Z.eqb_eq in E. subst z'. rewrite py_eq_bool, py_eq_int. destruct (strip v); try reflexivity. destruct b, b0; reflexivity.
  - cbn in E. apply Z.eqb_eq in E. subst z. rewrite py_eq_bool, py_eq_int. destruct (strip v); try reflexivity. destruct b', b; reflexivity.
  - cbn in E. apply Z.eqb_eq in E. subst. reflexivity.
  - cbn in E. apply str_eqb_eq in E. subst. reflexivity.
  - cbn in E. apply str_eqb_eq in E. subst. reflexivity.
  - cbn in E. rewrite andb_true_r in E. apply N.eqb_eq in E. subst. reflexivity.
Qed.

Lemma pep_kind : forall k, pep586 k -> is_prim k \/ is_dict_kind k.
Proof.
  intros k H. destruct k as [|b|z|fl|u|bs|ls|ls|ls|ls|ls|c [|? ?]|c v0]; try destruct H; cbn; auto.
  unfold is_prim, is_dict_kind. cbn [strip]. destruct (fits_i64 z); auto.
Qed.

(** JSON inputs and Python inputs look up alike. *)
Lemma json_strip : forall j, strip (json_to_py j) = json_to_py j.
Proof. destruct j; reflexivity. Qed.

Section Lookup.
Variable py_str : pyval -> str.
Variable f64_to_string : f64 -> str.
Variable max_digits : N.

Lemma lookup_json : forall lk j, lk_validate py_str f64_to_string max_digits lk (IJson j) = lk_validate py_str f64_to_string max_digits lk (IPy (json_to_py j)).
Proof.
  intros lk j. unfold lk_validate.
  assert (B : bool_slot lk (IJson j) = bool_slot lk (IPy (json_to_py j))) by (destruct j; reflexivity).
  assert (I : int_slot max_digits lk (IJson j) = int_slot max_digits lk (IPy (json_to_py j))).
  { unfold int_slot. destruct (lk_int lk) as [|p q]; [reflexivity|]. destruct j; try reflexivity.
    cbn [exact_int validate_int require_exact json_to_py]. unfold number_int, into_i64. destruct (fits_i64 z); reflexivity. }
  assert (S : str_slot py_str f64_to_string lk (IJson j) = str_slot py_str f64_to_string lk (IPy (json_to_py j))) by (destruct j; reflexivity).
  rewrite B, I, S. reflexivity.
Qed.

Lemma lookup_sound : forall l v id, lk_validate py_str f64_to_string max_digits (lk_build l) (IPy v) = VOk (Some id) ->
  exists k e, In k l /\ nth_error l id = Some e /\ py_eq k v = true /\ (e = k \/ py_eq k e = true).
Proof.
  intros l v id H. pose proof (inv_build l) as I. set (lk := lk_build l) in *. unfold lk_validate in H.
  destruct (bool_slot lk (IPy v)) as [i|] eqn:B.
  { injection H as ->. unfold bool_slot in B. cbn [validate_bool] in B. destruct (strip v) eqn:S; try discriminate B.
    assert (Q : exists e, nth_error l id = Some e /\ strip e = PBool b).
    { destruct b; [apply (i_true _ _ I), B|apply (i_false _ _ I), B]. }
    destruct Q as (e & Q1 & Q2). exists e, e. split; [eapply nth_error_In; exact Q1|]. split; [exact Q1|]. split; [|left; reflexivity].
    rewrite py_eq_strip_l, Q2, py_eq_bool, S. apply eqb_reflx. }
  clear B. destruct (int_slot max_digits lk (IPy v)) as [[i|]|e] eqn:IS; [| |discriminate].
  { injection H as ->. unfold int_slot in IS. destruct (lk_int lk) eqn:L; [discriminate|]. rewrite <- L in IS. clear L.
    destruct v; cbn [exact_int] in IS; try discriminate IS.
    unfold into_i64 in IS. cbn [int_value] in IS. destruct (fits_i64 z); [|discriminate IS]. injection IS as IS.
    apply (i_int _ _ I) in IS. exists (PInt z), (PInt z). split; [eapply nth_error_In; exact IS|]. split; [exact IS|].
    split; [rewrite py_eq_int; cbn; apply Z.eqb_refl|left; reflexivity]. }
  clear IS. destruct (str_slot py_str f64_to_string lk (IPy v)) as [i|] eqn:SS.
  { injection H as ->. unfold str_slot in SS. cbn [is_python] in SS. destruct v; cbn [exact_str_of] in SS; try discriminate SS.
    apply (i_str _ _ I) in SS. exists (PStr s), (PStr s). split; [eapply nth_error_In; exact SS|]. split; [exact SS|].
    split; [cbn; apply str_eqb_refl|left; reflexivity]. }
  cbn [input_object] in H. clear SS. destruct (pd_lookup v (lk_py_dict lk)) as [i|] eqn:D.
  { injection H as ->. unfold pd_lookup in D. destruct (hashable v); [|discriminate]. apply pd_get_in in D. destruct D as (k & Hk & E).
    destruct (proj1 (i_dict _ _ I) _ _ Hk) as (A & e & N & C). exists k, e. auto. }
  clear D. destruct (values_slot (lk_py_values lk) v) as [i|] eqn:VS.
  { injection H as ->. assert (Q : exists k, In (k, id) (lk_py_values lk) /\ py_eq k v = true).
    { clear I. induction (lk_py_values lk) as [|[k0 i0] q IHq]; cbn [values_slot] in VS; [discriminate|].
      destruct (py_eq k0 v) eqn:E; [injection VS as ->; exists k0; split; [left; reflexivity|exact E]|].
      destruct (IHq VS) as (k & ? & ?). exists k. split; [right|]; assumption. }
    destruct Q as (k & Hk & E). apply (i_vals _ _ I) in Hk. exists k, k. split; [eapply nth_error_In; exact Hk|]. auto. }
  injection H as H. unfold pd_lookup in H. destruct (hashable v); [|discriminate]. apply pd_get_in in H. destruct H as (k & Hk & E).
  destruct (proj1 (i_prims _ _ I) _ _ Hk) as (A & e & N & C). exists k, e. auto.
Qed.

Lemma lookup_no_error : forall l v, ~ overlooked l v ->
  exists o, lk_validate py_str f64_to_string max_digits (lk_build l) (IPy v) = VOk o.
Proof.
  intros l v N. pose proof (inv_build l) as I. set (lk := lk_build l) in *. unfold lk_validate.
  destruct (bool_slot lk (IPy v)); [eauto|].
  destruct (int_slot max_digits lk (IPy v)) as [[i|]|e] eqn:IS; [eauto| |].
  - destruct (str_slot _ _ lk (IPy v)); [eauto|]. destruct (pd_lookup _ _); [eauto|]. destruct (values_slot _ _); eauto.
  - exfalso. apply N. unfold int_slot in IS. destruct (lk_int lk) as [|p q] eqn:L; [discriminate|].
    destruct v; cbn [exact_int] in IS; try discriminate IS. unfold into_i64 in IS. cbn [int_value] in IS.
    destruct (fits_i64 z) eqn:F; [discriminate IS|]. split.
    + cbn. destruct (Z.ltb_spec z (- 2 ^ 63)); [left; assumption|right]. destruct (Z.ltb_spec z (2 ^ 63)); [|lia].
      assert (fits_i64 z = true) by (apply fits_iff; lia). congruence.
    + destruct (i_int_n _ _ I) as (z0 & F0 & Hz0); [rewrite L; discriminate|]. exists (PInt z0). split; [exact Hz0|]. cbn. apply fits_iff, F0.
Qed.

Lemma lookup_complete : forall l v k, Forall pep586 l -> hashable v = true -> ~ overlooked l v -> In k l -> py_eq k v = true ->
  exists id, lk_validate py_str f64_to_string max_digits (lk_build l) (IPy v) = VOk (Some id).
Proof.
  intros l v k HP HV N Hk E. pose proof (inv_build l) as I. rewrite Forall_forall in HP.
  destruct (lookup_no_error l v N) as [o Ho]. unfold lk_validate in *. set (lk := lk_build l) in *.
  destruct (bool_slot lk (IPy v)); [eauto|].
  destruct (int_slot max_digits lk (IPy v)) as [[i|]|e]; [eauto| |discriminate Ho].
  destruct (str_slot _ _ lk (IPy v)); [eauto|]. cbn [input_object] in *.
  destruct (pd_lookup v (lk_py_dict lk)) eqn:D; [eauto|]. destruct (values_slot _ v); [eauto|]. clear Ho o.
  unfold pd_lookup in *. rewrite HV in *. 
  assert (G : forall P d, holds P l d -> P k -> exists id, pd_get v d = Some id).
  { intros P d [H1 H2] Pk. destruct (H2 k Hk Pk) as (k0 & id & Hk0 & C). eapply pd_get_some; [exact Hk0|].
    destruct C as [->|C]; [exact E|]. destruct (H1 _ _ Hk0) as (A & _). rewrite (pep_eq k0 k); auto. }
  destruct (pep_kind k (HP k Hk)) as [P|P].
  - destruct (G _ _ (i_prims _ _ I) P) as [id ->]. eauto.
  - destruct (G _ _ (i_dict _ _ I) P) as [id Hid]. congruence.
Qed.

Lemma lookup_same : forall l v id, Forall pep586 l -> In v l -> (match v with PBool _ | PInt _ | PStr _ => True | _ => False end) ->
  lk_validate py_str f64_to_string max_digits (lk_build l) (IPy v) = VOk (Some id) -> nth_error l id = Some v.
Proof.
  intros l v id HP Hv T H. pose proof (inv_build l) as I. rewrite Forall_forall in HP.
  destruct (lookup_sound l v id H) as (k & e & Hk & He & E & C).
  assert (PE : pep586 e) by (apply HP; eapply nth_error_In; exact He).
  assert (EV : py_eq e v = true) by (destruct C as [->|C]; [exact E|rewrite <- (pep_eq k e); auto]).
  unfold lk_validate in H. set (lk := lk_build l) in *. destruct v as [|b|z|fl|u|bs|ls|ls|ls|ls|ls|c attrs|c v]; try destruct T.
  - unfold bool_slot in H. cbn [validate_bool strip] in H. destruct b.
    + destruct (lk_true lk) as [i|] eqn:L; [|contradiction (i_true_c _ _ I L _ Hv eq_refl)].
      injection H as ->. destruct (i_true _ _ I _ L) as (e' & Q1 & Q2). assert (pep586 e') by (apply HP; eapply nth_error_In; exact Q1).
      rewrite Q1. destruct e' as [|? | | | | | | | | | |? [|? ?]| ]; try contradiction; try discriminate Q2. exact (f_equal Some Q2).
    + destruct (lk_false lk) as [i|] eqn:L; [|contradiction (i_false_c _ _ I L _ Hv eq_refl)].
      injection H as ->. destruct (i_false _ _ I _ L) as (e' & Q1 & Q2). assert (pep586 e') by (apply HP; eapply nth_error_In; exact Q1).
      rewrite Q1. destruct e' as [|? | | | | | | | | | |? [|? ?]| ]; try contradiction; try discriminate Q2. exact (f_equal Some Q2).
  - destruct (fits_i64 z) eqn:F.
    + unfold bool_slot in H. cbn [validate_bool strip val_err] in H.
      destruct (i_int_c _ _ I z F Hv) as [i Hi]. unfold int_slot in H.
      destruct (lk_int lk) as [|p q] eqn:L; [discriminate Hi|]. rewrite <- L in H, Hi. cbn [exact_int] in H.
      unfold into_i64 in H. cbn [int_value] in H. rewrite F, Hi in H. injection H as ->. apply (i_int _ _ I), Hi.
    + rewrite He. f_equal. destruct e as [|b'|z'|fl'|u'|bs'|ls'|ls'|ls'|ls'|ls'|c' [|? ?]|c' v0']; try contradiction; try discriminate EV.
      * cbn in EV. apply Z.eqb_eq in EV. destruct b'; subst z; discriminate F.
      * cbn in EV. apply Z.eqb_eq in EV. congruence.
  - unfold bool_slot in H. cbn [validate_bool strip val_err] in H.
    destruct (i_str_c _ _ I u Hv) as [i Hi].
    assert (IS : int_slot max_digits lk (IPy (PStr u)) = VOk None) by (unfold int_slot; destruct (lk_int lk); reflexivity).
    rewrite IS in H. unfold str_slot in H. cbn [is_python exact_str_of] in H. rewrite Hi in H. injection H as ->. apply (i_str _ _ I), Hi.
Qed.
End Lookup.
