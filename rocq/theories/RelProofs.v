From Coq Require Import List NArith ZArith Bool Lia.
From Verif Require Import Base Float64 Float64Proofs IntParse Numbers NumbersProofs BytesCodec Values VState LookupKey LookupKeyProofs Collections Child Inputs Scalars Literal LiteralProofs Wrappers Union TaggedUnion Tuple ModelFields TypedDict Assign Arguments Classes Interp InterpSpec InterpProofs RelSpec.
Import ListNotations.
Open Scope nat_scope.

(** Two validations side by side: of the same input ([Same]), of a JSON document and its
    Python counterpart ([Docs]), and also of a JSON key and a string ([Keys]); or of the
    same strings in strings mode and in Python mode ([Strs]). *)
Inductive rmode := Same | Docs | Keys | Strs.
Definition key_mode (m : rmode) : rmode := match m with Same => Same | Strs => Strs | _ => Keys end.
Definition of_json (m : rmode) : Prop := m = Docs \/ m = Keys.
Inductive Rin : rmode -> input -> input -> Prop :=
| Rin_eq m i : Rin m i i
| Rin_json m j : of_json m -> plain_json j -> Rin m (IJson j) (IPy (json_to_py j))
| Rin_key m k : m = Keys -> Rin m (IKey k) (IPy (PStr k))
| Rin_strings m v : m = Strs -> plain_strings v -> Rin m (IStrings v) (IPy v).

Definition is_some {A} (o : option A) : bool := match o with Some _ => true | None => false end.

Record Rex (b : bool) (x1 x2 : extra) : Prop := {
  rx_type : b = true -> x_input_type x1 = x_input_type x2;
  rx_lax : b = false -> x_strict x1 = Some false /\ x_from_attributes x1 <> Some true;
  rx_strict : x_strict x1 = x_strict x2; rx_fa : x_from_attributes x1 = x_from_attributes x2;
  rx_alias : x_by_alias x1 = x_by_alias x2; rx_name : x_by_name x1 = x_by_name x2;
  rx_data : x_data x1 = x_data x2; rx_field : x_field_name x1 = x_field_name x2 }.
Record Rst (b : bool) (s1 s2 : state) : Prop := {
  rs_ex : Rex b (st_extra s1) (st_extra s2);
  rs_partial : st_partial s1 = st_partial s2;
  rs_exact : is_some (st_exactness s1) = is_some (st_exactness s2) }.

(** Whether errors are compared up to the three names of "not a mapping". *)
Class Merge := merge : bool.
Section Basics.
Context {mrg : Merge}.
Definition merged (t : etype) : etype := if merge then one_name t else t.
Definition seen (e : line_error) : line_error := set_type (merged (le_type e)) (freeze_error e).
Definition Rlines (l1 l2 : list line_error) : Prop := map seen l1 = map seen l2.
Inductive Rerr : verror -> verror -> Prop :=
| RLines l1 l2 : Rlines l1 l2 -> Rerr (LineErrors l1) (LineErrors l2)
| RInternal e : Rerr (InternalErr e) (InternalErr e)
| ROmit : Rerr Omit Omit
| RUse : Rerr UseDefault UseDefault
| RPanic : Rerr Panic Panic.
Inductive Rr {A} (R : A -> A -> Prop) : vres A -> vres A -> Prop :=
| ROk a1 a2 : R a1 a2 -> Rr R (VOk a1) (VOk a2)
| RErr e1 e2 : Rerr e1 e2 -> Rr R (VErr e1) (VErr e2).
Inductive RP (b : bool) {A} (R : A -> A -> Prop) : vres A * state -> vres A * state -> Prop :=
| RPair r1 r2 s1 s2 : Rr R r1 r2 -> Rst b s1 s2 -> RP b R (r1, s1) (r2, s2).
Inductive Ropt {A} (R : A -> A -> Prop) : option A -> option A -> Prop :=
| RNone : Ropt R None None
| RSome a1 a2 : R a1 a2 -> Ropt R (Some a1) (Some a2).

Definition rv (b : bool) (m : rmode) (v1 v2 : validator) : Prop :=
  forall i1 i2 s1 s2, Rin m i1 i2 -> Rst b s1 s2 -> RP b eq (v1 i1 s1) (v2 i2 s2).
Definition rd (b : bool) (d1 d2 : option loc_item -> state -> vres (option pyval) * state) : Prop :=
  forall l s1 s2, Rst b s1 s2 -> RP b eq (d1 l s1) (d2 l s2).
Record rcv (b : bool) (m : rmode) (c1 c2 : cv) : Prop := { rc_v : rv b m (cv_validate c1) (cv_validate c2); rc_d : rd b (cv_default c1) (cv_default c2) }.

(** ** Basic facts *)
Lemma Rin_obj m i1 i2 : Rin m i1 i2 -> input_object i1 = input_object i2.
Proof. intros []; reflexivity. Qed.
Lemma Rin_undefined m i1 i2 : Rin m i1 i2 -> is_undefined i1 = is_undefined i2.
Proof. intros [| ? j ? P| |? v ? P]; try reflexivity; destruct P; reflexivity. Qed.
Lemma Rin_none m i1 i2 : Rin m i1 i2 -> is_none_input i1 = is_none_input i2.
Proof. intros [| ? j ? P| |? v ? P]; try reflexivity; destruct P; reflexivity. Qed.
Lemma Rlines_nil l1 l2 : Rlines l1 l2 -> is_nil l1 = is_nil l2.
Proof. unfold Rlines. destruct l1, l2; cbn; congruence. Qed.
Lemma Rlines_refl l : Rlines l l. Proof. reflexivity. Qed.
Lemma Rlines_app a1 a2 b1 b2 : Rlines a1 a2 -> Rlines b1 b2 -> Rlines (a1 ++ b1) (a2 ++ b2).
Proof. unfold Rlines. rewrite !map_app. now intros -> ->. Qed.
Lemma Rlines_one t l m i1 i2 : Rin m i1 i2 -> Rlines [{| le_type := t; le_loc := l; le_input := i1 |}] [{| le_type := t; le_loc := l; le_input := i2 |}].
Proof. intros H. unfold Rlines. cbn. unfold seen, freeze_error. cbn. now rewrite (Rin_obj _ _ _ H). Qed.
Lemma freeze_cases e1 e2 : seen e1 = seen e2 ->
  merged (le_type e1) = merged (le_type e2) /\ le_loc e1 = le_loc e2 /\ input_object (le_input e1) = input_object (le_input e2).
Proof. destruct e1, e2; cbn. unfold seen, freeze_error. cbn. intros [= -> -> ->]. auto. Qed.
Lemma freeze_intro e1 e2 : merged (le_type e1) = merged (le_type e2) -> le_loc e1 = le_loc e2 -> input_object (le_input e1) = input_object (le_input e2) ->
  seen e1 = seen e2.
Proof. destruct e1, e2; cbn. unfold seen, freeze_error. cbn. now intros -> -> ->. Qed.
Definition rel_fun (f : line_error -> line_error) : Prop := forall e1 e2, seen e1 = seen e2 -> seen (f e1) = seen (f e2).
Lemma Rlines_map f l1 l2 : rel_fun f -> Rlines l1 l2 -> Rlines (map f l1) (map f l2).
Proof.
  intros F. revert l2. induction l1 as [|e1 l1 IH]; intros [|e2 l2]; unfold Rlines; cbn [map]; try discriminate; [reflexivity|].
  intros H. pose proof (f_equal (@tl _) H) as H2. pose proof (f_equal (hd_error (A := _)) H) as H1. cbn [tl hd_error] in H1, H2.
  f_equal; [apply F; congruence|now apply IH].
Qed.
Lemma rel_outer l : rel_fun (with_outer l).
Proof. intros e1 e2 H. apply freeze_cases in H. destruct H as (A & B & C). apply freeze_intro; cbn; congruence. Qed.
Lemma rel_comp f g : rel_fun f -> rel_fun g -> rel_fun (fun e => f (g e)).
Proof. intros F G e1 e2 H. now apply F, G. Qed.
Lemma rel_set_type t : rel_fun (set_type t).
Proof. intros e1 e2 H. apply freeze_cases in H. destruct H as (A & B & C). apply freeze_intro; cbn; congruence. Qed.
Lemma rel_apply p lba n : rel_fun (fun e => apply_error_loc p e lba n).
Proof.
  unfold apply_error_loc. destruct lba; [|apply rel_outer].
  apply (rel_comp (with_outer _)); [apply rel_outer|]. generalize (rev (lp_rest p)). induction l as [|i l IH]; intros e1 e2 H; cbn [fold_left]; [exact H|].
  apply IH. now apply rel_outer.
Qed.

Lemma Rerr_refl e : Rerr e e. Proof. destruct e; constructor; reflexivity. Qed.
Lemma Rr_refl A (r : vres A) : Rr eq r r. Proof. destruct r; constructor; [reflexivity|apply Rerr_refl]. Qed.
Lemma Rr_val_err A (R : A -> A -> Prop) t m i1 i2 : Rin m i1 i2 -> Rr R (val_err t i1) (val_err t i2).
Proof. intros H. constructor. constructor. apply (Rlines_one _ _ _ _ _ H). Qed.
Lemma Rr_weaken A (R Q : A -> A -> Prop) r1 r2 : (forall a b, R a b -> Q a b) -> Rr R r1 r2 -> Rr Q r1 r2.
Proof. intros H []; constructor; auto. Qed.
Lemma Rerr_outer l e1 e2 : Rerr e1 e2 -> Rerr (with_outer_err l e1) (with_outer_err l e2).
Proof. intros []; cbn; constructor. apply Rlines_map; [apply rel_outer|assumption]. Qed.

Lemma Rst_refl s : Rst true s s.
Proof. split; [split|..]; try reflexivity. discriminate. Qed.
Lemma Rst_partial b p s1 s2 : Rst b s1 s2 -> Rst b (set_partial p s1) (set_partial p s2).
Proof. intros [[] ? ?]. split; [split|..]; cbn; auto. Qed.
Lemma Rst_exact b e1 e2 s1 s2 : is_some e1 = is_some e2 -> Rst b s1 s2 -> Rst b (set_exactness e1 s1) (set_exactness e2 s2).
Proof. intros ? [[] ? ?]. split; [split|..]; cbn; auto. Qed.
Lemma Rst_fields b n1 n2 s1 s2 : Rst b s1 s2 -> Rst b (set_fields_set n1 s1) (set_fields_set n2 s2).
Proof. intros [[] ? ?]. split; [split|..]; cbn; auto. Qed.
Lemma Rst_add b n1 n2 s1 s2 : Rst b s1 s2 -> Rst b (add_fields_set n1 s1) (add_fields_set n2 s2).
Proof. apply Rst_fields. Qed.
Lemma floor_some e s : is_some (st_exactness (floor_exactness e s)) = is_some (st_exactness s).
Proof. unfold floor_exactness. destruct (st_exactness s) as [[]|] eqn:E; cbn; rewrite ?E; try reflexivity. destruct e; cbn; rewrite ?E; reflexivity. Qed.
Lemma floor_rest e s : st_extra (floor_exactness e s) = st_extra s /\ st_partial (floor_exactness e s) = st_partial s.
Proof. unfold floor_exactness. destruct (st_exactness s) as [[]|]; try easy. destruct e; easy. Qed.
Lemma Rst_floor b e1 e2 s1 s2 : Rst b s1 s2 -> Rst b (floor_exactness e1 s1) (floor_exactness e2 s2).
Proof.
  intros [X P E]. destruct (floor_rest e1 s1) as [A1 B1], (floor_rest e2 s2) as [A2 B2].
  split; [now rewrite A1, A2|congruence|now rewrite !floor_some].
Qed.
Lemma Rst_extra b x1 x2 s1 s2 : Rex b x1 x2 -> Rst b s1 s2 -> Rst b (set_extra x1 s1) (set_extra x2 s2).
Proof. intros ? [? ? ?]. split; cbn; auto. Qed.
Lemma Rex_data b d x1 x2 : Rex b x1 x2 -> Rex b (set_data d x1) (set_data d x2).
Proof. intros []. split; cbn; auto. Qed.
Lemma Rex_field b d x1 x2 : Rex b x1 x2 -> Rex b (set_field_name d x1) (set_field_name d x2).
Proof. intros []. split; cbn; auto. Qed.
Lemma Rst_handler b e1 e2 s1 s2 : Rst b s1 s2 -> is_some e1 = is_some e2 -> Rst b (handler_state s1 e1) (handler_state s2 e2).
Proof. intros [[] ? ?] ?. split; [split|..]; cbn; auto. Qed.

Lemma strict_rel b d s1 s2 : Rst b s1 s2 -> strict_or s1 d = strict_or s2 d.
Proof. intros [[] ? ?]. unfold strict_or. now rewrite rx_strict0. Qed.
Lemma strict_false d s1 s2 : Rst false s1 s2 -> strict_or s2 d = false.
Proof. intros [[] ? ?]. unfold strict_or. destruct rx_lax0; [reflexivity|]. rewrite <- rx_strict0, H. reflexivity. Qed.
Lemma fa_rel b d s1 s2 : Rst b s1 s2 -> unwrap_or (x_from_attributes (st_extra s1)) d = unwrap_or (x_from_attributes (st_extra s2)) d.
Proof. intros [[] ? ?]. now rewrite rx_fa0. Qed.
Lemma fa_false d s1 s2 : Rst false s1 s2 -> d = false -> unwrap_or (x_from_attributes (st_extra s2)) d = false.
Proof. intros [[] ? ?] ->. destruct rx_lax0; [reflexivity|]. rewrite <- rx_fa0. destruct (x_from_attributes (st_extra s1)) as [[]|]; cbn; [now destruct H0|reflexivity|reflexivity]. Qed.
Lemma by_alias_rel b d s1 s2 : Rst b s1 s2 -> validate_by_alias_or s1 d = validate_by_alias_or s2 d.
Proof. intros [[] ? ?]. unfold validate_by_alias_or. now rewrite rx_alias0. Qed.
Lemma by_name_rel b d s1 s2 : Rst b s1 s2 -> validate_by_name_or s1 d = validate_by_name_or s2 d.
Proof. intros [[] ? ?]. unfold validate_by_name_or. now rewrite rx_name0. Qed.
Lemma partial_rel b s1 s2 : Rst b s1 s2 -> st_partial s1 = st_partial s2. Proof. apply rs_partial. Qed.

Lemma RP_intro b A (R : A -> A -> Prop) r1 r2 s1 s2 : Rr R r1 r2 -> Rst b s1 s2 -> RP b R (r1, s1) (r2, s2).
Proof. now constructor. Qed.

Lemma rebind_rel b A (R : A -> A -> Prop) f s1 s2 (k1 k2 : state -> vres A * state) : Rst b s1 s2 ->
  (forall x1 x2, Rex b x1 x2 -> Rex b (f x1) (f x2)) ->
  (forall s1 s2, Rst b s1 s2 -> RP b R (k1 s1) (k2 s2)) -> RP b R (rebind f s1 k1) (rebind f s2 k2).
Proof.
  intros S F K. unfold rebind. specialize (K (set_extra (f (st_extra s1)) s1) (set_extra (f (st_extra s2)) s2)).
  destruct K as [r1 r2 t1 t2 Hr Ht]; [apply Rst_extra; [apply F, S|exact S]|].
  constructor; [exact Hr|]. apply Rst_extra; [apply S|exact Ht].
Qed.

End Basics.

(** ** The tactic: both sides take the same step *)
Ltac rst := repeat first
  [ assumption | apply Rst_refl | apply Rst_partial | apply Rst_floor | apply Rst_fields | apply Rst_add | apply Rst_exact
  | apply Rst_handler | apply Rst_extra | apply Rex_data | apply Rex_field | apply rs_ex | reflexivity ].
Ltac rin := first [assumption | apply Rin_eq | eassumption].
Ltac rlines :=
  repeat first [ assumption | reflexivity | apply Rlines_app | apply Rlines_map | apply rel_outer | apply rel_set_type | apply rel_apply
               | apply (rel_comp (with_outer _)) | apply (rel_comp (set_type _)) | eapply Rlines_one; eassumption ].
Ltac rerr := first [ assumption | apply Rerr_refl | constructor; solve [rlines] | apply Rerr_outer; assumption ].
Ltac rr := first [ assumption | apply Rr_refl | eapply Rr_val_err; eassumption | constructor; solve [rerr | reflexivity | eauto] ].
Ltac rp := first [ assumption | apply RP_intro; [solve [rr] | solve [rst]] ].

(** Extension point: relating two scrutinees. *)
Ltac rel_hook := fail.
Ltac rel_child :=
  match goal with
  | H : rv _ _ ?v1 ?v2 |- RP _ _ (?v1 _ _) (?v2 _ _) => apply H; [solve [rin] | solve [rst]]
  | H : rcv _ _ ?c1 ?c2 |- RP _ _ (cv_validate ?c1 _ _) (cv_validate ?c2 _ _) => apply (rc_v _ _ _ _ H); [solve [rin] | solve [rst]]
  | H : rcv _ _ ?c1 ?c2 |- RP _ _ (cv_default ?c1 _ _) (cv_default ?c2 _ _) => apply (rc_d _ _ _ _ H); solve [rst]
  | H : rd _ ?c1 ?c2 |- RP _ _ (?c1 _ _) (?c2 _ _) => apply H; solve [rst]
  | |- RP _ _ (rebind _ _ _) (rebind _ _ _) =>
      eapply rebind_rel; [solve [rst] | intros; solve [rst] | intros; rel_child]
  end.
Ltac rel_eq := first [ reflexivity | apply Rlines_nil; solve [rlines] | eapply Rin_undefined; eassumption | eapply Rin_none; eassumption
                     | eapply strict_rel; eassumption | congruence ].
Ltac rel_assert x y :=
  let t := type of x in
  let t := eval hnf in t in
  lazymatch t with
  | prod (vres ?A) state =>
      let H := fresh "H" in let R := open_constr:(_ : A -> A -> Prop) in let b := open_constr:(_ : bool) in
      assert (H : RP b R x y) by first [eassumption | rel_child | rel_hook]; revert H; generalize x, y; 
      let H := fresh "H" in intros ? ? H; destruct H as [? ? ? ? H ?]; destruct H as [? ? H|? ? H]
  | vres ?A =>
      let H := fresh "H" in let R := open_constr:(_ : A -> A -> Prop) in
      assert (H : Rr R x y) by first [eassumption | rel_hook]; revert H; generalize x, y;
      let H := fresh "H" in intros ? ? H; destruct H as [? ? H|? ? H]
  | verror => let H := fresh "H" in assert (H : Rerr x y) by assumption; destruct H
  | option ?A =>
      first [ let H := fresh "H" in assert (H : x = y) by rel_eq; rewrite H; clear H; destruct y
            | let H := fresh "H" in let R := open_constr:(_ : A -> A -> Prop) in
              assert (H : Ropt R x y) by first [eassumption | rel_hook]; revert H; generalize x, y;
              let H := fresh "H" in intros ? ? H; destruct H as [|? ? H] ]
  | _ => let H := fresh "H" in assert (H : x = y) by rel_eq; rewrite H; clear H; destruct y
  end.
Ltac step :=
  cbv beta;
  repeat match goal with H : ?x = ?y |- _ => is_var x; is_var y; subst y end;
  match goal with
  | |- _ ?t1 ?t2 =>
      match t1 with
      | context [match ?x with _ => _ end] =>
          lazymatch x with
          | context [match _ with _ => _ end] => fail
          | _ =>
              match t2 with
              | context [match ?y with _ => _ end] =>
                  lazymatch y with
                  | context [match _ with _ => _ end] => fail
                  | _ => tryif constr_eq x y then (tryif is_var x then destruct x else (let E := fresh "E" in destruct x eqn:E)) else rel_assert x y
                  end
              end
          end
      end
  end.

Lemma F2_length A B (R : A -> B -> Prop) l1 l2 : Forall2 R l1 l2 -> length l1 = length l2.
Proof. induction 1; cbn; congruence. Qed.

Section Loops.
Context {mrg : Merge}.
Variable b : bool.
Variable m : rmode.

Inductive Ritem : item input -> item input -> Prop :=
| RIt i1 i2 : Rin m i1 i2 -> Ritem (It i1) (It i2)
| RRaise e : Ritem (Raise e) (Raise e).
Inductive Rnum {A} (R : A -> A -> Prop) : nat * bool * A -> nat * bool * A -> Prop :=
| RNum n p a1 a2 : R a1 a2 -> Rnum R (n, p, a1) (n, p, a2).
Lemma enum_rel A (R : A -> A -> Prop) l1 l2 p n : Forall2 R l1 l2 -> Forall2 (Rnum R) (enumerate_from p n l1) (enumerate_from p n l2).
Proof.
  intros H. revert n. induction H as [|a1 a2 l1 l2 Ha Hl IH]; intros n; cbn [enumerate_from]; constructor; [|apply IH].
  replace (match l1 with [] => true | _ => false end) with (match l2 with [] => true | _ => false end); [now constructor|].
  destruct Hl; reflexivity.
Qed.

Record Rmc (m1 m2 : max_check) : Prop := {
  rm_cur : mc_current m1 = mc_current m2; rm_max : mc_max m1 = mc_max m2; rm_field : mc_field m1 = mc_field m2;
  rm_input : Rin m (mc_input m1) (mc_input m2); rm_actual : mc_actual m1 = mc_actual m2 }.
Lemma mc_incr_rel m1 m2 : Rmc m1 m2 ->
  Rr (fun _ _ => True) (fst (mc_incr m1)) (fst (mc_incr m2)) /\ Rmc (snd (mc_incr m1)) (snd (mc_incr m2)).
Proof.
  intros [A B C D E]. unfold mc_incr. rewrite A, B, C, E. destruct (mc_max m2) as [n|] eqn:Q; cbv zeta.
  - destruct (n <? S (mc_current m2)); cbn [fst snd]; (split; [|split; cbn; congruence]); [eapply Rr_val_err; eassumption|apply ROk; exact I].
  - split; [apply ROk; exact I|split; cbn; congruence].
Qed.

Lemma vec_loop_rel c1 c2 ff p items1 items2 : rv b m c1 c2 -> Forall2 (Rnum Ritem) items1 items2 -> forall mc1 mc2 out e1 e2 s1 s2,
  Rmc mc1 mc2 -> Rlines e1 e2 -> Rst b s1 s2 ->
  RP b eq (vec_loop c1 ff p mc1 out e1 items1 s1) (vec_loop c2 ff p mc2 out e2 items2 s2).
Proof.
  intros V. induction 1 as [|a1 a2 l1 l2 [n lp it1 it2 Hit] Hl IH]; intros mc1 mc2 out e1 e2 s1 s2 M He Hs; cbn [vec_loop].
  - step; rp.
  - pose proof (rm_input _ _ M) as MI. destruct Hit as [i1 i2 Hi|e]; [|rp].
    destruct (mc_incr_rel _ _ M) as [M1 M2]. destruct (mc_incr mc1) as [r1 mc1'], (mc_incr mc2) as [r2 mc2']; cbn [fst snd] in *.
      repeat first [ apply IH; [assumption|solve [rlines]|solve [rst]] | rp | step ].
Qed.

Lemma no_validator_rel items1 items2 i1 i2 : Forall2 Ritem items1 items2 -> Rin m i1 i2 -> forall mc1 mc2 ix, Rmc mc1 mc2 ->
  Rr eq (no_validator_loop mc1 i1 ix items1) (no_validator_loop mc2 i2 ix items2).
Proof.
  intros H I. induction H as [|a1 a2 l1 l2 [x1 x2 Hx|e] Hl IH]; intros mc1 mc2 ix M; cbn [no_validator_loop]; [rr| |rr].
  destruct (mc_incr_rel _ _ M) as [M1 M2]. destruct (mc_incr mc1) as [r1 mc1'], (mc_incr mc2) as [r2 mc2']; cbn [fst snd] in *.
  destruct M1; [|rr]. specialize (IH _ _ (S ix) M2). destruct IH as [o1 o2 ->|]; [|rr]. constructor. now rewrite (Rin_obj _ _ _ Hx).
Qed.

Lemma min_check_rel c i1 i2 mn n : Rin m i1 i2 -> Ropt Rerr (min_check c i1 mn n) (min_check c i2 mn n).
Proof. intros H. unfold min_check. destruct mn; [|constructor]. destruct (_ <? _); constructor. rerr. Qed.
Lemma max_check_rel c i1 i2 mn n : Rin m i1 i2 -> Ropt Rerr (max_check_err c i1 mn n) (max_check_err c i2 mn n).
Proof. intros H. unfold max_check_err. destruct mn; [|constructor]. destruct (_ <? _); constructor. rerr. Qed.

Definition is_it {A} (x : item A) : Prop := match x with It _ => True | Raise _ => False end.
Record Rseq (q1 q2 : seq) : Prop := {
  rq_items : Forall2 Ritem (sq_items q1) (sq_items q2); rq_len : sq_len q1 = sq_len q2;
  rq_list : sq_py_list q1 = sq_py_list q2 \/ (of_json m /\ Forall is_it (sq_items q1) /\ sq_len q1 = Some (length (sq_items q1))) }.
Definition Rread {A} (R : A -> A -> Prop) (f : bool -> input -> vres A) : Prop :=
  forall st i1 i2, (b = false -> st = false) -> Rin m i1 i2 -> Rr R (f st i1) (f st i2).
Lemma read_rel A (R : A -> A -> Prop) f d i1 i2 s1 s2 : Rread R f -> Rin m i1 i2 -> Rst b s1 s2 -> Rr R (f (strict_or s1 d) i1) (f (strict_or s2 d) i2).
Proof. intros F I S. rewrite (strict_rel _ _ _ _ S). apply F; [|exact I]. intros ->. exact (strict_false _ _ _ S). Qed.

Lemma items_of_rel l1 l2 : Forall2 Ritem l1 l2 -> items_of l1 = items_of l2.
Proof. unfold items_of. induction 1 as [|a1 a2 l1 l2 [x1 x2 Hx|e] Hl IH]; cbn [flat_map]; [reflexivity| |exact IH]. now rewrite (Rin_obj _ _ _ Hx), IH. Qed.
Lemma items_of_length l : Forall is_it l -> length (items_of l) = length l.
Proof. unfold items_of. induction 1 as [|[x|] l Hx Hl IH]; cbn in *; auto; easy. Qed.
Lemma no_validator_plain l : Forall is_it l -> forall mc i ix,
  no_validator_loop mc i ix l =
    match mc_max mc with
    | Some n => if Nat.ltb n (mc_current mc + length l) && negb (is_nil l) then val_err (ETooLong (mc_field mc) n (mc_actual mc)) (mc_input mc) else VOk (items_of l)
    | None => VOk (items_of l)
    end.
Proof.
  induction 1 as [|x l Hx Hl IH]; intros mc i ix; cbn [no_validator_loop].
  - destruct (mc_max mc); [|reflexivity]. now rewrite andb_false_r.
  - destruct x as [x|]; [|easy]. unfold mc_incr. destruct (mc_max mc) as [n|] eqn:M; cbv zeta.
    + cbn [is_nil negb length]. rewrite andb_true_r. destruct (n <? S (mc_current mc)) eqn:L.
      * apply Nat.ltb_lt in L. destruct (Nat.ltb_spec n (mc_current mc + S (length l))); [reflexivity|lia].
      * rewrite IH. cbn [mc_max mc_current mc_field mc_actual mc_input]. apply Nat.ltb_ge in L.
        destruct (Nat.ltb_spec n (mc_current mc + S (length l))) as [G|G].
        -- destruct (Nat.ltb_spec n (S (mc_current mc) + length l)); [|lia]. destruct l; [cbn in G; lia|]. reflexivity.
        -- destruct (Nat.ltb_spec n (S (mc_current mc) + length l)); [lia|]. reflexivity.
    + rewrite IH, M. reflexivity.
Qed.

Ltac rel_hook ::= first [ eapply min_check_rel; eassumption | eapply max_check_rel; eassumption | eapply read_rel; eassumption ].

Definition sane (c : coll) : Prop := match co_min c, co_max c with Some a, Some z => a <= z | _, _ => True end.
Lemma list_rel c child1 child2 vl : Ropt (rv b m) child1 child2 -> (of_json m -> child1 = None -> sane c) -> Rread Rseq vl ->
  rv b m (list_validate c child1 vl) (list_validate c child2 vl).
Proof.
  intros HC HS HV i1 i2 s1 s2 I S. unfold list_validate.
  destruct (read_rel _ _ _ (co_strict c) _ _ _ _ HV I S) as [q1 q2 Q|]; [|rp].
  assert (M : Rmc {| mc_current := 0; mc_max := co_max c; mc_field := CList; mc_input := i1; mc_actual := sq_len q1 |}
                  {| mc_current := 0; mc_max := co_max c; mc_field := CList; mc_input := i2; mc_actual := sq_len q2 |}).
  { split; cbn; auto. apply Q. }
  assert (S' : Rst b (floor_exactness (sq_exactness q1) s1) (floor_exactness (sq_exactness q2) s2)) by rst.
  cbv zeta. destruct HC as [|v1 v2 V].
  - pose proof (items_of_rel _ _ (rq_items _ _ Q)) as IO.
    assert (K : sq_py_list q1 = sq_py_list q2 -> RP b eq
      (if sq_py_list q1 then match min_check CList i1 (co_min c) (length (items_of (sq_items q1))) with Some e => (VErr e, floor_exactness (sq_exactness q1) s1)
         | None => match max_check_err CList i1 (co_max c) (length (items_of (sq_items q1))) with Some e => (VErr e, floor_exactness (sq_exactness q1) s1)
                   | None => (VOk (PList (items_of (sq_items q1))), floor_exactness (sq_exactness q1) s1) end end
       else match no_validator_loop {| mc_current := 0; mc_max := co_max c; mc_field := CList; mc_input := i1; mc_actual := sq_len q1 |} i1 0 (sq_items q1) with
            | VOk out => match min_check CList i1 (co_min c) (length out) with Some e => (VErr e, floor_exactness (sq_exactness q1) s1) | None => (VOk (PList out), floor_exactness (sq_exactness q1) s1) end
            | VErr e => (VErr e, floor_exactness (sq_exactness q1) s1) end)
      (if sq_py_list q2 then match min_check CList i2 (co_min c) (length (items_of (sq_items q2))) with Some e => (VErr e, floor_exactness (sq_exactness q2) s2)
         | None => match max_check_err CList i2 (co_max c) (length (items_of (sq_items q2))) with Some e => (VErr e, floor_exactness (sq_exactness q2) s2)
                   | None => (VOk (PList (items_of (sq_items q2))), floor_exactness (sq_exactness q2) s2) end end
       else match no_validator_loop {| mc_current := 0; mc_max := co_max c; mc_field := CList; mc_input := i2; mc_actual := sq_len q2 |} i2 0 (sq_items q2) with
            | VOk out => match min_check CList i2 (co_min c) (length out) with Some e => (VErr e, floor_exactness (sq_exactness q2) s2) | None => (VOk (PList out), floor_exactness (sq_exactness q2) s2) end
            | VErr e => (VErr e, floor_exactness (sq_exactness q2) s2) end)).
    { intros ->. rewrite IO. destruct (sq_py_list q2); [repeat first [rp | step]|].
      destruct (no_validator_rel _ _ _ _ (rq_items _ _ Q) I _ _ 0 M) as [o1 o2 ->|]; repeat first [rp | step]. }
    destruct (Bool.bool_dec (sq_py_list q1) (sq_py_list q2)) as [E|E].
    + specialize (K E). destruct (sq_py_list q1), (sq_py_list q2); try discriminate; exact K.
    + destruct (rq_list _ _ Q) as [E'|(NS & AI & LN)]; [contradiction|]. specialize (HS NS eq_refl).
      assert (AI2 : Forall is_it (sq_items q2)).
      { clear -Q AI. destruct Q as [F _ _]. induction F as [|a1 a2 l1 l2 [x1 x2 Hx|e] Hl IH]; constructor; inversion AI; subst; auto. }
      assert (L12 : length (sq_items q1) = length (sq_items q2)) by (eapply F2_length, Q).
      assert (LN2 : sq_len q2 = Some (length (sq_items q2))) by (rewrite <- (rq_len _ _ Q), LN, L12; reflexivity).
      assert (G : forall i q (s : state), Forall is_it (sq_items q) -> sq_len q = Some (length (sq_items q)) ->
         (match no_validator_loop {| mc_current := 0; mc_max := co_max c; mc_field := CList; mc_input := i; mc_actual := sq_len q |} i 0 (sq_items q) with
            | VOk out => match min_check CList i (co_min c) (length out) with Some e => (@VErr pyval e, s) | None => (VOk (PList out), s) end
            | VErr e => (VErr e, s) end) =
         match min_check CList i (co_min c) (length (items_of (sq_items q))) with Some e => (VErr e, s)
         | None => match max_check_err CList i (co_max c) (length (items_of (sq_items q))) with Some e => (VErr e, s)
                   | None => (VOk (PList (items_of (sq_items q))), s) end end).
      { intros i q s A L. rewrite (no_validator_plain _ A). cbn [mc_max mc_current mc_field mc_input mc_actual Nat.add]. rewrite L.
        pose proof (items_of_length _ A) as IL. unfold sane in HS. unfold max_check_err, min_check. rewrite IL.
        destruct (co_max c) as [mx|].
        - destruct (Nat.ltb_spec mx (length (sq_items q))) as [G|G].
          + destruct (sq_items q) as [|x l] eqn:Q'; [cbn in G; lia|]. cbn [is_nil negb andb].
            destruct (co_min c) as [mn|]; [|reflexivity]. destruct (Nat.ltb_spec (length (x :: l)) mn); [lia|reflexivity].
          + cbn [andb]. rewrite IL. destruct (co_min c) as [mn|]; [|reflexivity]. destruct (_ <? _); reflexivity.
        - rewrite IL. destruct (co_min c) as [mn|]; [|reflexivity]. destruct (_ <? _); reflexivity. }
      assert (K2 : RP b eq
        (match min_check CList i1 (co_min c) (length (items_of (sq_items q1))) with Some e => (VErr e, floor_exactness (sq_exactness q1) s1)
         | None => match max_check_err CList i1 (co_max c) (length (items_of (sq_items q1))) with Some e => (VErr e, floor_exactness (sq_exactness q1) s1)
                   | None => (VOk (PList (items_of (sq_items q1))), floor_exactness (sq_exactness q1) s1) end end)
        (match min_check CList i2 (co_min c) (length (items_of (sq_items q2))) with Some e => (VErr e, floor_exactness (sq_exactness q2) s2)
         | None => match max_check_err CList i2 (co_max c) (length (items_of (sq_items q2))) with Some e => (VErr e, floor_exactness (sq_exactness q2) s2)
                   | None => (VOk (PList (items_of (sq_items q2))), floor_exactness (sq_exactness q2) s2) end end)).
      { rewrite IO. repeat first [rp | step]. }
      rewrite (G i1 q1 _ AI LN), (G i2 q2 _ AI2 LN2). destruct (sq_py_list q1), (sq_py_list q2); exact K2.
  - unfold validate_iter_to_vec, enumerate_last_partial. rewrite (rs_partial _ _ _ S').
    pose proof (vec_loop_rel _ _ (co_fail_fast c) (st_partial (floor_exactness (sq_exactness q2) s2)) _ _ V
       (enum_rel _ _ _ _ (is_active (st_partial (floor_exactness (sq_exactness q2) s2))) 0 (rq_items _ _ Q)) _ _ [] [] [] _ _ M eq_refl S') as L.
    destruct L as [r1 r2 t1 t2 L T]. destruct L as [o1 o2 ->|]; [|rp]. repeat first [rp | step].
Qed.

(** ** Sets *)
Lemma validate_add_rel c1 c2 set i1 i2 s1 s2 : rv b m c1 c2 -> Rin m i1 i2 -> Rst b s1 s2 ->
  RP b eq (validate_add c1 set i1 s1) (validate_add c2 set i2 s2).
Proof. intros V I S. unfold validate_add. repeat first [rp | step]. Qed.
Lemma set_loop_rel c1 c2 ff c mx p j1 j2 items1 items2 : rv b m c1 c2 -> Rin m j1 j2 -> Forall2 (Rnum Ritem) items1 items2 -> forall set e1 e2 s1 s2,
  Rlines e1 e2 -> Rst b s1 s2 ->
  RP b eq (set_loop c1 ff c j1 mx p set e1 items1 s1) (set_loop c2 ff c j2 mx p set e2 items2 s2).
Proof.
  intros V J. induction 1 as [|a1 a2 l1 l2 [n lp it1 it2 Hit] Hl IH]; intros set e1 e2 s1 s2 He Hs; cbn [set_loop].
  - step; rp.
  - destruct Hit as [i1 i2 Hi|e]; [|rp]. cbv zeta.
    destruct (validate_add_rel _ _ set _ _ _ _ V Hi (Rst_partial b (if lp then p else PartialOff) _ _ Hs)) as [r1 r2 t1 t2 R T].
    assert (C : forall set e1 e2 s1 s2, Rlines e1 e2 -> Rst b s1 s2 -> RP b eq
      (if ff && negb (is_nil e1) then (VErr (LineErrors e1), s1) else set_loop c1 ff c j1 mx p set e1 l1 s1)
      (if ff && negb (is_nil e2) then (VErr (LineErrors e2), s2) else set_loop c2 ff c j2 mx p set e2 l2 s2)).
    { intros ? ? ? ? ? L ?. rewrite (Rlines_nil _ _ L). destruct (ff && negb (is_nil e3)); [rp|]. apply IH; assumption. }
    repeat first [ apply C; [solve [rlines | destruct lp; rlines]|assumption] | rp | step ].
Qed.
Lemma set_rel fz c c1 c2 vl : rv b m c1 c2 -> Rread Rseq vl -> rv b m (set_validate fz c c1 vl) (set_validate fz c c2 vl).
Proof.
  intros V HV i1 i2 s1 s2 I S. unfold set_validate.
  destruct (read_rel _ _ _ (co_strict c) _ _ _ _ HV I S) as [q1 q2 Q|]; [|rp].
  assert (S' : Rst b (floor_exactness (sq_exactness q1) s1) (floor_exactness (sq_exactness q2) s2)) by rst.
  cbv zeta. unfold validate_iter_to_set, enumerate_last_partial. rewrite (rs_partial _ _ _ S').
  destruct (set_loop_rel _ _ (co_fail_fast c) (if fz then CFrozenset else CSet) (co_max c) (st_partial (floor_exactness (sq_exactness q2) s2)) _ _ _ _ V I
       (enum_rel _ _ _ _ (is_active (st_partial (floor_exactness (sq_exactness q2) s2))) 0 (rq_items _ _ Q)) [] [] [] _ _ eq_refl S') as [r1 r2 t1 t2 L T].
  destruct L as [o1 o2 ->|]; [|rp]. repeat first [rp | step].
Qed.

(** ** Dicts *)
Inductive Rentry : entry -> entry -> Prop :=
| REntry k1 k2 l v1 v2 : Rin (key_mode m) k1 k2 -> Rin m v1 v2 -> Rentry (Entry k1 l v1) (Entry k2 l v2)
| RBad e : Rentry (BadEntry e) (BadEntry e).
Inductive RT : vres (list (pyval * pyval)) * list line_error * state -> vres (list (pyval * pyval)) * list line_error * state -> Prop :=
| RTriple r1 r2 e1 e2 s1 s2 : Rr eq r1 r2 -> Rlines e1 e2 -> Rst b s1 s2 -> RT (r1, e1, s1) (r2, e2, s2).
Lemma dict_loop_rel k1 k2 v1 v2 p items1 items2 : rv b (key_mode m) k1 k2 -> rv b m v1 v2 -> Forall2 (Rnum Rentry) items1 items2 -> forall out e1 e2 s1 s2,
  Rlines e1 e2 -> Rst b s1 s2 -> RT (dict_loop k1 v1 p out e1 items1 s1) (dict_loop k2 v2 p out e2 items2 s2).
Proof.
  intros K V. induction 1 as [|a1 a2 l1 l2 [n lp en1 en2 Hen] Hl IH]; intros out e1 e2 s1 s2 He Hs; cbn [dict_loop].
  - constructor; [rr|assumption|assumption].
  - destruct Hen as [x1 x2 l w1 w2 HK HV|e]; [|constructor; [rr|assumption|rst]]. cbv zeta.
    repeat first [ apply IH; [solve [rlines | destruct lp; rlines]|solve [rst]] | constructor; [solve [rr]|solve [rlines | destruct lp; rlines]|solve [rst]] | step ].
Qed.
Lemma dict_rel c k1 k2 v1 v2 vd : rv b (key_mode m) k1 k2 -> rv b m v1 v2 -> Rread (Forall2 Rentry) vd -> rv b m (dict_validate c k1 v1 vd) (dict_validate c k2 v2 vd).
Proof.
  intros K V HV i1 i2 s1 s2 I S. unfold dict_validate.
  destruct (read_rel _ _ _ (co_strict c) _ _ _ _ HV I S) as [q1 q2 Q|]; [|rp].
  unfold enumerate_last_partial. rewrite (rs_partial _ _ _ S).
  destruct (dict_loop_rel _ _ _ _ (st_partial s2) _ _ K V (enum_rel _ _ _ _ (is_active (st_partial s2)) 0 Q) [] [] [] _ _ eq_refl S) as [r1 r2 e1 e2 t1 t2 R L T].
  destruct R as [o1 o2 ->|]; [|rp]. repeat first [rp | step].
Qed.

(** ** Tuples *)
Record Rti (a1 a2 : titer) : Prop := { rt_rest : Forall2 Ritem (ti_rest a1) (ti_rest a2); rt_pos : ti_pos a1 = ti_pos a2; rt_err : ti_err a1 = ti_err a2 }.
Record Rta (a1 a2 : tacc) : Prop := {
  ra_out : ta_out a1 = ta_out a2; ra_errs : Rlines (ta_errs a1) (ta_errs a2); ra_count : ta_count a1 = ta_count a2;
  ra_iter : Rti (ta_iter a1) (ta_iter a2); ra_state : Rst b (ta_state a1) (ta_state a2) }.
Inductive Rt : tres -> tres -> Prop :=
| RDone a1 a2 : Rta a1 a2 -> Rt (TDone a1) (TDone a2)
| RFail e1 e2 s1 s2 : Rerr e1 e2 -> Rst b s1 s2 -> Rt (TFail e1 s1) (TFail e2 s2).
Inductive Rpair {A B} (P : A -> A -> Prop) (Q : B -> B -> Prop) : A * B -> A * B -> Prop :=
| RPr a1 a2 b1 b2 : P a1 a2 -> Q b1 b2 -> Rpair P Q (a1, b1) (a2, b2).
Lemma ti_next_rel a1 a2 : Rti a1 a2 -> Rpair (Ropt (Rin m)) Rti (ti_next a1) (ti_next a2).
Proof.
  intros [R P E]. unfold ti_next. rewrite P, E. destruct R as [|x1 x2 l1 l2 [y1 y2 Hy|e] R]; constructor; try constructor; cbn; auto; constructor.
Qed.
Lemma ti_take_rel n a1 a2 : Rti a1 a2 -> Rpair (Forall2 (Rin m)) Rti (ti_take n a1) (ti_take n a2).
Proof.
  revert a1 a2. induction n as [|n IH]; intros a1 a2 H; cbn [ti_take]; [now constructor|].
  destruct (ti_next_rel _ _ H) as [o1 o2 i1 i2 [|x1 x2 Hx] T]; [now constructor|].
  destruct (IH _ _ T) as [xs1 xs2 j1 j2 X J]. constructor; [now constructor|exact J].
Qed.
Lemma ta_with_rel o e1 e2 s1 s2 a1 a2 : Rta a1 a2 -> Rlines e1 e2 -> Rst b s1 s2 -> Rta (ta_with o e1 s1 a1) (ta_with o e2 s2 a2).
Proof. intros [] ? ?. split; cbn; auto. Qed.
Lemma ta_move_rel i1 i2 a1 a2 : Rta a1 a2 -> Rti i1 i2 -> Rta (ta_move i1 a1) (ta_move i2 a2).
Proof. intros [] ?. split; cbn; auto. Qed.

Section TupleLoops.
Variable c1 c2 : tuple_cfg.
Variable i1 i2 : input.
Variable actual : option nat.
Hypothesis Cmax : tu_max c1 = tu_max c2.
Hypothesis Cff : tu_fail_fast c1 = tu_fail_fast c2.
Hypothesis I : Rin m i1 i2.
Lemma push_rel v s1 s2 a1 a2 : Rst b s1 s2 -> Rta a1 a2 -> Rt (push_output_item c1 i1 actual v s1 a1) (push_output_item c2 i2 actual v s2 a2).
Proof.
  intros S A. unfold push_output_item. rewrite Cmax, (ra_out _ _ A).
  assert (D : Rt (TDone (ta_with (ta_out a2 ++ [v]) (ta_errs a1) s1 a1)) (TDone (ta_with (ta_out a2 ++ [v]) (ta_errs a2) s2 a2))).
  { constructor. apply ta_with_rel; [exact A|apply A|exact S]. }
  cbv zeta. destruct (tu_max c2); [|exact D]. destruct (_ <? _); [|exact D]. constructor; [rerr|exact S].
Qed.
Lemma use_item_rel ix p1 p2 a1 a2 : RP b eq p1 p2 -> Rta a1 a2 -> Rt (use_item c1 i1 actual ix p1 a1) (use_item c2 i2 actual ix p2 a2).
Proof.
  intros [r1 r2 s1 s2 R S] A. unfold use_item. pose proof (ra_errs _ _ A) as AE. destruct R as [v1 v2 ->|e1 e2 []].
  - now apply push_rel.
  - constructor. rewrite (ra_out _ _ A). apply ta_with_rel; [exact A|rlines|exact S].
  - constructor; [constructor|exact S].
  - constructor. rewrite (ra_out _ _ A). now apply ta_with_rel.
  - constructor; [constructor|exact S].
  - constructor; [constructor|exact S].
Qed.
Lemma stop_rel a1 a2 : Rta a1 a2 -> stop_now c1 a1 = stop_now c2 a2.
Proof. intros A. unfold stop_now. now rewrite Cff, (Rlines_nil _ _ (ra_errs _ _ A)). Qed.
Lemma tuple_items_rel vs1 vs2 : Forall2 (rcv b m) vs1 vs2 -> forall a1 a2, Rta a1 a2 -> Rt (tuple_items c1 i1 actual vs1 a1) (tuple_items c2 i2 actual vs2 a2).
Proof.
  induction 1 as [|v1 v2 vs1 vs2 V VS IH]; intros a1 a2 A; cbn [tuple_items]; [now constructor|]. cbv zeta.
  assert (ST : Rt (match ti_next (ta_iter a1) with
        | (Some x, it') => use_item c1 i1 actual (ta_count a1) (cv_validate v1 x (ta_state a1)) (ta_move it' a1)
        | (None, it') => match cv_default v1 (Some (index_loc (ta_count (ta_move it' a1) - 1))) (ta_state a1) with
            | (VOk (Some x), s) => TDone (ta_with (ta_out (ta_move it' a1) ++ [x]) (ta_errs (ta_move it' a1)) s (ta_move it' a1))
            | (VOk None, s) => TDone (ta_with (ta_out (ta_move it' a1)) (ta_errs (ta_move it' a1) ++ [new_error_loc EMissing i1 (index_loc (ta_count (ta_move it' a1) - 1))]) s (ta_move it' a1))
            | (VErr e, s) => TFail e s end end)
       (match ti_next (ta_iter a2) with
        | (Some x, it') => use_item c2 i2 actual (ta_count a2) (cv_validate v2 x (ta_state a2)) (ta_move it' a2)
        | (None, it') => match cv_default v2 (Some (index_loc (ta_count (ta_move it' a2) - 1))) (ta_state a2) with
            | (VOk (Some x), s) => TDone (ta_with (ta_out (ta_move it' a2) ++ [x]) (ta_errs (ta_move it' a2)) s (ta_move it' a2))
            | (VOk None, s) => TDone (ta_with (ta_out (ta_move it' a2)) (ta_errs (ta_move it' a2) ++ [new_error_loc EMissing i2 (index_loc (ta_count (ta_move it' a2) - 1))]) s (ta_move it' a2))
            | (VErr e, s) => TFail e s end end)).
  { destruct (ti_next_rel _ _ (ra_iter _ _ A)) as [o1 o2 it1 it2 O T]. pose proof (ta_move_rel _ _ _ _ A T) as A'. destruct O as [|x1 x2 X].
    - rewrite (ra_count _ _ A'), (ra_out _ _ A'). pose proof (ra_errs _ _ A') as AE.
      destruct (rc_d _ _ _ _ V (Some (index_loc (ta_count (ta_move it2 a2) - 1))) _ _ (ra_state _ _ A)) as [r1 r2 s1 s2 R S].
      destruct R as [d1 d2 ->|e1 e2 E]; [|now constructor]. destruct d2; constructor; apply ta_with_rel; try assumption; rlines.
    - rewrite (ra_count _ _ A). apply use_item_rel; [|exact A']. apply (rc_v _ _ _ _ V); [exact X|apply A]. }
  destruct ST as [b1 b2 B|e1 e2 s1 s2 E S]; [|now constructor]. rewrite (stop_rel _ _ B). destruct (stop_now c2 b2); [now constructor|now apply IH].
Qed.
Lemma moved_rel a1 a2 : Rta a1 a2 -> Rta (ta_move (snd (ti_next (ta_iter a1))) a1) (ta_move (snd (ti_next (ta_iter a2))) a2).
Proof. intros A. apply ta_move_rel; [exact A|]. destruct (ti_next_rel _ _ (ra_iter _ _ A)). assumption. Qed.
Lemma tuple_rest_rel v1 v2 l1 l2 : rcv b m v1 v2 -> Forall2 Ritem l1 l2 -> forall a1 a2, Rta a1 a2 -> Rt (tuple_rest c1 i1 actual v1 l1 a1) (tuple_rest c2 i2 actual v2 l2 a2).
Proof.
  intros V. induction 1 as [|x1 x2 l1 l2 [y1 y2 Y|e] L IH]; intros a1 a2 A; cbn [tuple_rest].
  - constructor. now apply moved_rel.
  - rewrite (ra_count _ _ A).
    destruct (use_item_rel (ta_count a2) _ _ _ _ (rc_v _ _ _ _ V _ _ _ _ Y (ra_state _ _ A)) (moved_rel _ _ A)) as [b1 b2 B|e1 e2 s1 s2 E S]; [|now constructor].
    rewrite (stop_rel _ _ B). destruct (stop_now c2 b2); [now constructor|now apply IH].
  - constructor. now apply moved_rel.
Qed.
Inductive Rbuf : buffered -> buffered -> Prop :=
| RBEnd a1 a2 f1 f2 ix : Rta a1 a2 -> Forall2 (Rin m) f1 f2 -> Rbuf (BEnd a1 f1 ix) (BEnd a2 f2 ix)
| RBRet t1 t2 : Rt t1 t2 -> Rbuf (BReturn t1) (BReturn t2).
Lemma tuple_buffered_rel v1 v2 l1 l2 : rcv b m v1 v2 -> Forall2 Ritem l1 l2 -> forall f1 f2 ix a1 a2, Forall2 (Rin m) f1 f2 -> Rta a1 a2 ->
  Rbuf (tuple_buffered c1 i1 actual v1 l1 f1 ix a1) (tuple_buffered c2 i2 actual v2 l2 f2 ix a2).
Proof.
  intros V. induction 1 as [|x1 x2 l1 l2 [y1 y2 Y|e] L IH]; intros f1 f2 ix a1 a2 F A; cbn [tuple_buffered].
  - constructor; [now apply moved_rel|exact F].
  - assert (F' : Forall2 (Rin m) (f1 ++ [y1]) (f2 ++ [y2])) by (apply Forall2_app; [exact F|repeat constructor; exact Y]).
    destruct F' as [|z1 z2 g1 g2 Z G]; [apply RBRet, RFail; [constructor|apply A]|]. rewrite (ra_count _ _ A).
    destruct (use_item_rel (ta_count a2) _ _ _ _ (rc_v _ _ _ _ V _ _ _ _ Z (ra_state _ _ A)) (moved_rel _ _ A)) as [b1 b2 B|e1 e2 s1 s2 E S]; [|now apply RBRet, RFail].
    rewrite (stop_rel _ _ B). destruct (stop_now c2 b2); [now apply RBRet, RDone|]. apply IH; assumption.
  - constructor; [now apply moved_rel|exact F].
Qed.
Lemma F2_skipn A (R : A -> A -> Prop) k l1 l2 : Forall2 R l1 l2 -> Forall2 R (skipn k l1) (skipn k l2).
Proof. intros H. revert k. induction H; intros [|k]; cbn; auto. Qed.
Lemma F2_firstn A (R : A -> A -> Prop) k l1 l2 : Forall2 R l1 l2 -> Forall2 R (firstn k l1) (firstn k l2).
Proof. intros H. revert k. induction H; intros [|k]; cbn; auto. Qed.
Hypothesis Cvar : tu_variadic c1 = tu_variadic c2.
Hypothesis Cvs : Forall2 (rcv b m) (tu_validators c1) (tu_validators c2).
Lemma tuple_variable_rel a1 a2 : Rta a1 a2 -> Rt (tuple_variable c1 i1 actual a1) (tuple_variable c2 i2 actual a2).
Proof.
  intros A. unfold tuple_variable. rewrite Cvar. destruct (tu_variadic c2) as [k|].
  - pose proof (F2_skipn _ _ k _ _ Cvs) as SK. destruct SK as [|v1 v2 tl1 tl2 V TL]; [constructor; [constructor|apply A]|].
    destruct (tuple_items_rel _ _ (F2_firstn _ _ k _ _ Cvs) _ _ A) as [b1 b2 B|e1 e2 s1 s2 E S]; [|now constructor].
    rewrite (stop_rel _ _ B). destruct (stop_now c2 b2); [now constructor|].
    pose proof (F2_length _ _ _ _ _ TL) as LEN. destruct TL as [|t1 t2 tl1 tl2 T TL].
    + apply tuple_rest_rel; [exact V|apply B|exact B].
    + rewrite LEN. destruct (ti_take_rel (length (t2 :: tl2)) _ _ (ra_iter _ _ B)) as [f1 f2 it1 it2 F IT]. cbv zeta.
      assert (B2 : Rta {| ta_out := ta_out b1; ta_errs := ta_errs b1; ta_count := ta_count b1; ta_iter := it1; ta_state := ta_state b1 |}
                       {| ta_out := ta_out b2; ta_errs := ta_errs b2; ta_count := ta_count b2; ta_iter := it2; ta_state := ta_state b2 |}).
      { destruct B. split; cbn; auto. }
      cbn [ta_count]. rewrite (ra_count _ _ B) in B2 |- *.
      destruct (tuple_buffered_rel _ _ _ _ V (rt_rest _ _ IT) _ _ (ta_count b2) _ _ F B2) as [g1 g2 h1 h2 ix G H|r1 r2 R]; [|exact R].
      match goal with |- Rt (match tuple_items _ _ _ _ ?x1 with _ => _ end) (match tuple_items _ _ _ _ ?x2 with _ => _ end) => assert (X : Rta x1 x2) end.
      { split; cbn; try apply G; auto. split; cbn; auto. clear -H. induction H; cbn; constructor; auto. now constructor. }
      destruct (tuple_items_rel _ _ (Forall2_cons _ _ T TL) _ _ X) as [w1 w2 W|]; [|now constructor].
      constructor. split; cbn; try apply W; apply G.
  - destruct (tuple_items_rel _ _ Cvs _ _ A) as [b1 b2 B|e1 e2 s1 s2 E S]; [|now constructor].
    rewrite (stop_rel _ _ B). destruct (stop_now c2 b2); [now constructor|].
    destruct (ti_next_rel _ _ (ra_iter _ _ B)) as [o1 o2 it1 it2 O T]. destruct O.
    + constructor. now apply ta_move_rel.
    + rewrite (F2_length _ _ _ _ _ Cvs). constructor; [rerr|apply B].
Qed.
End TupleLoops.
Lemma tuple_rel c l1 l2 vt : Forall2 (rcv b m) l1 l2 -> Rread Rseq vt -> rv b m (tuple_validate (mk_tuple c l1) vt) (tuple_validate (mk_tuple c l2) vt).
Proof.
  intros L HV i1 i2 s1 s2 I S. unfold tuple_validate. cbv zeta. apply (Rst_partial b PartialOff) in S. cbn [tu_strict mk_tuple].
  destruct (read_rel _ _ _ (tn_strict c) _ _ _ _ HV I S) as [q1 q2 Q|]; [|rp]. rewrite (rq_len _ _ Q).
  match goal with |- RP _ _ (match tuple_variable _ _ _ ?x1 with _ => _ end) (match tuple_variable _ _ _ ?x2 with _ => _ end) => assert (X : Rta x1 x2) end.
  { split; cbn; auto; [reflexivity|split; cbn; auto; apply Q|rst]. }
  destruct (tuple_variable_rel (mk_tuple c l1) (mk_tuple c l2) _ _ (sq_len q2) eq_refl eq_refl I eq_refl L _ _ X) as [a1 a2 A|e1 e2 t1 t2 E T]; [|now constructor; [constructor|]].
  pose proof (ra_state _ _ A) as AS. pose proof (ra_errs _ _ A) as AE.
  rewrite (rt_err _ _ (ra_iter _ _ A)). destruct (ti_err _); [rp|]. cbn [tu_min mk_tuple]. rewrite (ra_out _ _ A).
  assert (G : Rlines (ta_errs a1 ++ match tn_min c with Some mn => if Nat.ltb (length (ta_out a2)) mn then [new_error (ETooShort CTuple mn (length (ta_out a2))) i1] else [] | None => [] end)
                     (ta_errs a2 ++ match tn_min c with Some mn => if Nat.ltb (length (ta_out a2)) mn then [new_error (ETooShort CTuple mn (length (ta_out a2))) i2] else [] | None => [] end)).
  { apply Rlines_app; [exact AE|]. destruct (tn_min c); [|reflexivity]. destruct (_ <? _); [|reflexivity]. eapply Rlines_one; eassumption. }
  cbv zeta. rewrite (Rlines_nil _ _ G). destruct (is_nil _); rp.
Qed.

(** ** Mappings *)
Lemma key_str_rel m' i1 i2 : Rin m' i1 i2 -> Rr eq (key_str i1) (key_str i2).
Proof. intros H. pose proof H as H'. destruct H as [|? j N P| |? v N P]; [apply Rr_refl| |apply Rr_refl|]; destruct P; cbn; try exact (Rr_val_err _ _ _ _ _ _ H'); apply Rr_refl. Qed.
Definition Rfound (a1 a2 : lookup_path * input) : Prop := fst a1 = fst a2 /\ Rin m (snd a1) (snd a2).
Record Rmd (d1 d2 : mdict) : Prop := {
  rm_get : forall k, Rr (Ropt Rfound) (md_get d1 k) (md_get d2 k);
  rm_iter : Rr (Forall2 Rentry) (md_iter d1) (md_iter d2);
  rm_attr : md_is_attr d1 = md_is_attr d2;
  rm_last : md_last_key d1 = md_last_key d2 }.
Lemma key_error_rel k t i1 i2 lba n : Rin m i1 i2 -> Ropt (fun e1 e2 => Rlines [e1] [e2]) (key_error k t i1 lba n) (key_error k t i2 lba n).
Proof.
  intros I. unfold key_error. destruct lba; [destruct (first_of k); constructor|constructor]; eapply Rlines_one; eassumption.
Qed.

Record Rfa (a1 a2 : facc) : Prop := {
  rf_dict : fa_dict a1 = fa_dict a2; rf_errors : Rlines (fa_errors a1) (fa_errors a2); rf_set : fa_set a1 = fa_set a2; rf_used : fa_used a1 = fa_used a2 }.
Lemma fa_add_rel e1 e2 a1 a2 : Rlines e1 e2 -> Rfa a1 a2 -> Rfa (fa_add_errors e1 a1) (fa_add_errors e2 a2).
Proof. intros ? []. split; cbn; auto. now apply Rlines_app. Qed.
Lemma fa_use_rel k a1 a2 : Rfa a1 a2 -> Rfa (fa_use k a1) (fa_use k a2).
Proof. intros []. split; cbn; congruence. Qed.
Lemma fa_put_rel k v a1 a2 : Rfa a1 a2 -> Rfa (fa_put k v a1) (fa_put k v a2).
Proof. intros []. split; cbn; congruence. Qed.
Lemma fa_mark_rel k a1 a2 : Rfa a1 a2 -> Rfa (fa_mark k a1) (fa_mark k a2).
Proof. intros []. split; cbn; congruence. Qed.
Ltac rfa := repeat first [ assumption | apply fa_add_rel; [solve [rlines]|] | apply fa_use_rel | apply fa_put_rel | apply fa_mark_rel ].
Inductive Rfield : field -> field -> Prop :=
| RField i c1 c2 : rcv b m c1 c2 -> Rfield (mk_field i c1) (mk_field i c2).

Lemma fields_loop_rel c1 c2 md1 md2 i1 i2 ba bn fs1 fs2 : fc_loc_by_alias c1 = fc_loc_by_alias c2 -> Rmd md1 md2 -> Rin m i1 i2 -> Forall2 Rfield fs1 fs2 -> forall a1 a2 s1 s2,
  Rfa a1 a2 -> Rst b s1 s2 -> RP b Rfa (fields_loop c1 md1 i1 ba bn fs1 a1 s1) (fields_loop c2 md2 i2 ba bn fs2 a2 s2).
Proof.
  intros LBA M I. induction 1 as [|f1 f2 fs1 fs2 [fi v1 v2 V] FS IH]; intros a1 a2 s1 s2 A S; cbn [fields_loop].
  - constructor; [now constructor|exact S].
  - rewrite LBA, (rf_dict _ _ A). cbn [f_keys f_name f_cv mk_field]. cbv zeta.
    assert (S' : Rst b (set_extra (set_data (Some (fa_dict a2)) (st_extra s1)) s1) (set_extra (set_data (Some (fa_dict a2)) (st_extra s2)) s2)) by rst.
    revert S'. generalize (set_extra (set_data (Some (fa_dict a2)) (st_extra s1)) s1), (set_extra (set_data (Some (fa_dict a2)) (st_extra s2)) s2). clear s1 s2 S. intros s1 s2 S.
    destruct (collection_select _ ba bn) as [key|]; [|rp].
    destruct (rm_get _ _ M key) as [o1 o2 [|[p1 x1] [p2 x2] [P X]]|e1 e2 E].
    + destruct (rc_d _ _ _ _ V (Some (LStr (fi_name fi))) _ _ S) as [r1 r2 t1 t2 R T]. destruct R as [d1 d2 ->|e1 e2 E].
      * destruct d2; [apply IH; [rfa|assumption]|]. destruct (key_error_rel key EMissing _ _ (fc_loc_by_alias c2) (fi_name fi) I); [rp|apply IH; [rfa|assumption]].
      * destruct E; first [rp | apply IH; [rfa|assumption]].
    + cbn [fst snd] in *. subst p1.
      destruct (rebind_rel b _ eq (set_field_name (Some (fi_name fi))) _ _ (cv_validate v1 x1) (cv_validate v2 x2) S) as [r1 r2 t1 t2 R T]; [intros; rst|intros; now apply V|].
      destruct R as [d1 d2 ->|e1 e2 E]; [apply IH; [rfa|assumption]|]. destruct E; first [rp | apply IH; [rfa|assumption]].
    + destruct E; first [rp | apply IH; [rfa|assumption]].
Qed.

Inductive Rfcfg : fields_cfg -> fields_cfg -> Prop :=
| RFcfg c fs1 fs2 ex1 ex2 k1 k2 : Forall2 Rfield fs1 fs2 -> Ropt (rv b m) ex1 ex2 -> Ropt (rv b (key_mode m)) k1 k2 -> Rfcfg (mk_fields c fs1 ex1 k1) (mk_fields c fs2 ex2 k2).
Definition Rextras (o1 o2 : list (pyval * pyval) * list line_error * list str) : Prop :=
  fst (fst o1) = fst (fst o2) /\ Rlines (snd (fst o1)) (snd (fst o2)) /\ snd o1 = snd o2.
Lemma extras_loop_rel c1 c2 used es1 es2 : Rfcfg c1 c2 -> Forall2 Rentry es1 es2 -> forall out e1 e2 fset s1 s2,
  Rlines e1 e2 -> Rst b s1 s2 -> RP b Rextras (extras_loop c1 used es1 out e1 fset s1) (extras_loop c2 used es2 out e2 fset s2).
Proof.
  intros [c fs1 fs2 ex1 ex2 k1 k2 FS EX EK]. induction 1 as [|a1 a2 es1 es2 [x1 x2 l w1 w2 HX HW|e] ES IH]; intros out e1 e2 fset s1 s2 L S; cbn [extras_loop].
  - constructor; [constructor; repeat split; exact L|exact S].
  - destruct (key_str_rel _ _ _ HX) as [k1' k2' ->|f1 f2 F].
    + destruct (mem_str k2' used); [now apply IH|]. cbn [fc_extra fc_extras fc_extras_keys mk_fields]. destruct (fo_extra c).
      * cbv zeta beta.
        assert (K : forall k s1 s2, Rst b s1 s2 -> RP b Rextras
            (match ex1 with Some v => match v w1 s1 with
                | (VOk x, s') => extras_loop (mk_fields c fs1 ex1 k1) used es1 (dict_set (PStr k) x out) e1 (fset ++ [k]) s'
                | (VErr (LineErrors l0), s') => extras_loop (mk_fields c fs1 ex1 k1) used es1 out (e1 ++ map (with_outer l) l0) fset s'
                | (VErr e, s') => (VErr e, s') end
              | None => extras_loop (mk_fields c fs1 ex1 k1) used es1 (dict_set (PStr k) (input_object w1) out) e1 (fset ++ [k]) s1 end)
            (match ex2 with Some v => match v w2 s2 with
                | (VOk x, s') => extras_loop (mk_fields c fs2 ex2 k2) used es2 (dict_set (PStr k) x out) e2 (fset ++ [k]) s'
                | (VErr (LineErrors l0), s') => extras_loop (mk_fields c fs2 ex2 k2) used es2 out (e2 ++ map (with_outer l) l0) fset s'
                | (VErr e, s') => (VErr e, s') end
              | None => extras_loop (mk_fields c fs2 ex2 k2) used es2 (dict_set (PStr k) (input_object w2) out) e2 (fset ++ [k]) s2 end)).
        { intros k t1 t2 T. clear - T L EX HW IH. destruct EX as [|v1 v2 V].
          - rewrite (Rin_obj _ _ _ HW). now apply IH.
          - destruct (V _ _ _ _ HW T) as [r1 r2 u1 u2 R U]. destruct R as [d1 d2 ->|g1 g2 G]; [now apply IH|]. destruct G; first [rp | apply IH; [rlines|assumption]]. }
        destruct EK as [|v1 v2 V]; [now apply K|]. destruct (V _ _ _ _ HX S) as [r1 r2 u1 u2 R U]. destruct R as [d1 d2 ->|g1 g2 G].
        -- destruct (as_str d2); [now apply K|rp].
        -- destruct G; first [rp | apply IH; [rlines|assumption]].
      * apply IH; [rlines|assumption].
      * now apply IH.
    + destruct F; first [rp | apply IH; [rlines|assumption]].
  - rp.
Qed.

Lemma model_type_rel : rel_fun (fun e => match le_type e with EDictType => set_type EModelType e | _ => e end).
Proof. intros e1 e2 H. pose proof (freeze_cases _ _ H) as (T & _ & _). unfold merged in T. destruct merge eqn:ME.
  - assert (Q : forall e, seen (match le_type e with EDictType => set_type EModelType e | _ => e end) = seen e).
    { intros e. destruct (le_type e) eqn:TE; try reflexivity. unfold seen, set_type, merged. rewrite ME, TE. reflexivity. }
    now rewrite !Q.
  - rewrite T. destruct (le_type e2); try exact H. now apply rel_set_type.
Qed.
Lemma fields_finish_rel (d : pyval) e1 e2 n s1 s2 : Rlines e1 e2 -> Rst b s1 s2 ->
  RP b eq (if is_nil e1 then (VOk d, add_fields_set n s1) else (VErr (LineErrors e1), s1)) (if is_nil e2 then (VOk d, add_fields_set n s2) else (VErr (LineErrors e2), s2)).
Proof. intros L S. rewrite (Rlines_nil _ _ L). destruct (is_nil e2); rp. Qed.
Definition Rread2 {A} (R : A -> A -> Prop) (f : bool -> bool -> input -> vres A) : Prop :=
  forall st fa i1 i2, (b = false -> st = false /\ (merge = false -> fa = false)) -> Rin m i1 i2 -> Rr R (f st fa i1) (f st fa i2).
Lemma model_fields_rel c1 c2 vm : Rfcfg c1 c2 -> (b = false -> merge = false -> fc_from_attributes c2 = false) -> Rread2 Rmd vm -> rv b m (model_fields_validate c1 vm) (model_fields_validate c2 vm).
Proof.
  intros C FA HV i1 i2 s1 s2 I S. unfold model_fields_validate. cbv zeta. apply (Rst_partial b PartialOff) in S.
  revert S. generalize (set_partial PartialOff s1), (set_partial PartialOff s2). clear s1 s2. intros s1 s2 S. pose proof C as C'.
  destruct C as [c fs1 fs2 ex1 ex2 k1 k2 FS EX EK]. set (c1 := mk_fields c fs1 ex1 k1) in *. set (c2 := mk_fields c fs2 ex2 k2) in *.
  change (fc_strict c1) with (fc_strict c2). change (fc_from_attributes c1) with (fc_from_attributes c2). change (fc_by_alias c1) with (fc_by_alias c2). change (fc_by_name c1) with (fc_by_name c2).
  change (fc_extra c1) with (fc_extra c2).
  rewrite (strict_rel _ _ _ _ S), (fa_rel _ _ _ _ S), (by_alias_rel _ _ _ _ S), (by_name_rel _ _ _ _ S).
  destruct (HV (strict_or s2 (fc_strict c2)) (unwrap_or (x_from_attributes (st_extra s2)) (fc_from_attributes c2)) i1 i2) as [md1 md2 M|e1 e2 E]; [|exact I| |].
  { intros B. rewrite B in S. split; [exact (strict_false _ _ _ S)|intros ME; exact (fa_false _ _ _ S (FA B ME))]. }
  - destruct (rebind_rel b _ Rfa (set_data (Some [])) _ _ (fields_loop c1 md1 i1 (validate_by_alias_or s2 (fc_by_alias c2)) (validate_by_name_or s2 (fc_by_name c2)) (fc_fields c1) fa_init)
       (fields_loop c2 md2 i2 (validate_by_alias_or s2 (fc_by_alias c2)) (validate_by_name_or s2 (fc_by_name c2)) (fc_fields c2) fa_init) S) as [r1 r2 t1 t2 R T].
    { intros; rst. } { intros. apply fields_loop_rel; auto. split; reflexivity. }
    destruct R as [a1 a2 A|]; [|rp]. rewrite (rm_attr _ _ M), (rf_dict _ _ A), (rf_set _ _ A), (rf_used _ _ A).
    destruct (_ || _); [apply fields_finish_rel; [apply A|exact T]|].
    destruct (rm_iter _ _ M) as [es1 es2 ES|]; [|rp].
    destruct (extras_loop_rel c1 c2 (fa_used a2) _ _ C' ES [] _ _ (fa_set a2) _ _ (rf_errors _ _ A) T) as [r1 r2 u1 u2 R U].
    destruct R as [[[o1 l1] f1] [[o2 l2] f2] (Q1 & Q2 & Q3)|]; [|rp]. cbn [fst snd] in *. subst o1 f1. now apply fields_finish_rel.
  - destruct E; try rp. constructor; [constructor; constructor|exact S]. apply Rlines_map; [apply model_type_rel|assumption].
Qed.

Lemma td_loop_rel c1 c2 md1 md2 i1 i2 last p ba bn fs1 fs2 : fc_loc_by_alias c1 = fc_loc_by_alias c2 -> Rmd md1 md2 -> Rin m i1 i2 -> Forall2 Rfield fs1 fs2 -> forall a1 a2 s1 s2,
  Rfa a1 a2 -> Rst b s1 s2 -> RP b Rfa (td_loop c1 md1 i1 last p ba bn fs1 a1 s1) (td_loop c2 md2 i2 last p ba bn fs2 a2 s2).
Proof.
  intros LBA M I. induction 1 as [|f1 f2 fs1 fs2 [fi v1 v2 V] FS IH]; intros a1 a2 s1 s2 A S; cbn [td_loop].
  - constructor; [now constructor|exact S].
  - rewrite LBA, (rf_dict _ _ A). cbn [f_keys f_name f_cv f_required mk_field]. cbv zeta.
    assert (S' : Rst b (set_extra (set_data (Some (fa_dict a2)) (st_extra s1)) s1) (set_extra (set_data (Some (fa_dict a2)) (st_extra s2)) s2)) by rst.
    revert S'. generalize (set_extra (set_data (Some (fa_dict a2)) (st_extra s1)) s1), (set_extra (set_data (Some (fa_dict a2)) (st_extra s2)) s2). clear s1 s2 S. intros s1 s2 S.
    destruct (collection_select _ ba bn) as [key|]; [|rp].
    destruct (rm_get _ _ M key) as [o1 o2 [|[p1 x1] [p2 x2] [P X]]|e1 e2 E].
    + destruct (rc_d _ _ _ _ V (Some (LStr (fi_name fi))) _ _ S) as [r1 r2 t1 t2 R T]. destruct R as [d1 d2 ->|e1 e2 E].
      * destruct d2; [apply IH; [rfa|assumption]|]. destruct (fi_required fi); [|now apply IH].
        destruct (key_error_rel key EMissing _ _ (fc_loc_by_alias c2) (fi_name fi) I); [rp|apply IH; [rfa|assumption]].
      * destruct E; first [rp | apply IH; [rfa|assumption]].
    + cbn [fst snd] in *. subst p1.
      destruct (rebind_rel b _ eq (set_field_name (Some (fi_name fi))) _ _ (cv_validate v1 x1) (cv_validate v2 x2)
         (Rst_partial b (if last_is last (LStr (lp_first p2)) then p else PartialOff) _ _ S)) as [r1 r2 t1 t2 R T]; [intros; rst|intros; now apply V|].
      destruct R as [d1 d2 ->|e1 e2 E]; [apply IH; [rfa|assumption]|]. destruct E; first [rp | apply IH; [solve [repeat match goal with |- context [if ?x then _ else _] => destruct x end; rfa]|assumption]].
    + destruct E; first [rp | apply IH; [destruct (last_is _ _); rfa|assumption]].
Qed.
Definition Rtextras (o1 o2 : list (pyval * pyval) * list line_error) : Prop := fst o1 = fst o2 /\ Rlines (snd o1) (snd o2).
Lemma td_extras_rel c1 c2 used last p es1 es2 : Rfcfg c1 c2 -> Forall2 Rentry es1 es2 -> forall out e1 e2 s1 s2,
  Rlines e1 e2 -> Rst b s1 s2 -> RP b Rtextras (td_extras c1 used last p es1 out e1 s1) (td_extras c2 used last p es2 out e2 s2).
Proof.
  intros [c fs1 fs2 ex1 ex2 k1 k2 FS EX EK]. induction 1 as [|a1 a2 es1 es2 [x1 x2 l w1 w2 HX HW|e] ES IH]; intros out e1 e2 s1 s2 L S; cbn [td_extras].
  - constructor; [constructor; repeat split; exact L|exact S].
  - destruct (key_str_rel _ _ _ HX) as [k1' k2' ->|f1 f2 F].
    + destruct (mem_str k2' used); [now apply IH|]. cbn [fc_extra fc_extras mk_fields]. destruct (fo_extra c).
      * cbv zeta. destruct EX as [|v1 v2 V].
        -- rewrite (Rin_obj _ _ _ HW). now apply IH.
        -- destruct (V _ _ _ _ HW (Rst_partial b (if last_is last l then p else PartialOff) _ _ S)) as [r1 r2 u1 u2 R U]. destruct R as [d1 d2 ->|g1 g2 G]; [now apply IH|].
           destruct G; first [rp | apply IH; [destruct (last_is _ _); rlines|assumption]].
      * apply IH; [rlines|assumption].
      * now apply IH.
    + destruct F; first [rp | apply IH; [rlines|assumption]].
  - rp.
Qed.
Lemma td_finish_rel (d : pyval) e1 e2 s1 s2 : Rlines e1 e2 -> Rst b s1 s2 ->
  RP b eq (if is_nil e1 then (VOk d, s1) else (VErr (LineErrors e1), s1)) (if is_nil e2 then (VOk d, s2) else (VErr (LineErrors e2), s2)).
Proof. intros L S. rewrite (Rlines_nil _ _ L). destruct (is_nil e2); rp. Qed.
Lemma typed_dict_rel c1 c2 vm : Rfcfg c1 c2 -> Rread Rmd vm -> rv b m (typed_dict_validate c1 vm) (typed_dict_validate c2 vm).
Proof.
  intros C HV i1 i2 s1 s2 I S. unfold typed_dict_validate. cbv zeta. pose proof C as C'.
  destruct C as [c fs1 fs2 ex1 ex2 k1 k2 FS EX EK]. set (c1 := mk_fields c fs1 ex1 k1) in *. set (c2 := mk_fields c fs2 ex2 k2) in *.
  change (fc_strict c1) with (fc_strict c2). change (fc_by_alias c1) with (fc_by_alias c2). change (fc_by_name c1) with (fc_by_name c2).
  change (fc_extra c1) with (fc_extra c2).
  rewrite (by_alias_rel _ _ _ _ S), (by_name_rel _ _ _ _ S), (partial_rel _ _ _ S).
  destruct (read_rel _ _ _ (fc_strict c2) _ _ _ _ HV I S) as [md1 md2 M|e1 e2 E]; [|rp]. rewrite (rm_last _ _ M).
  set (last := if is_active (st_partial s2) then md_last_key md2 else None). set (ba := validate_by_alias_or s2 (fc_by_alias c2)). set (bn := validate_by_name_or s2 (fc_by_name c2)).
  match goal with |- RP _ _ (match rebind _ _ ?k1 with _ => _ end) (match rebind _ _ ?k2 with _ => _ end) =>
    destruct (rebind_rel b _ Rfa (set_data (Some [])) _ _ k1 k2 S) as [r1 r2 t1 t2 R T] end.
  { intros; rst. }
  { intros t1 t2 T. cbv beta. change (fc_fields c1) with fs1. change (fc_fields c2) with fs2. destruct (td_loop_rel c1 c2 md1 md2 i1 i2 last (st_partial s2) ba bn _ _ eq_refl M I FS fa_init fa_init t1 t2) as [r1 r2 u1 u2 R U]; [split; reflexivity|exact T|].
    destruct R as [a1 a2 A|e1 e2 E]; [|apply RP_intro; [now constructor|exact U]]. constructor; [now constructor|rst]. }
  destruct R as [a1 a2 A|]; [|rp]. rewrite (rm_attr _ _ M), (rf_dict _ _ A), (rf_used _ _ A).
  destruct (_ || _); [apply td_finish_rel; [apply A|exact T]|].
  destruct (rm_iter _ _ M) as [es1 es2 ES|]; [|rp].
  destruct (td_extras_rel c1 c2 (fa_used a2) last (st_partial s2) _ _ C' ES (fa_dict a2) _ _ _ _ (rf_errors _ _ A) T) as [r1 r2 u1 u2 R U].
  destruct R as [[o1 l1] [o2 l2] (Q1 & Q2)|]; [|rp]. cbn [fst snd] in *. subst o1. now apply td_finish_rel.
Qed.
End Loops.
