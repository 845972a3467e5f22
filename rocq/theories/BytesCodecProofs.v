From Coq Require Import List NArith ZArith Bool Lia.
From Verif Require Import Base Utf8 BytesCodec BytesCodecSpec.
Import ListNotations.
Open Scope N_scope.
Ltac Zify.zify_post_hook ::= Z.to_euclidean_division_equations.

Lemma forall_below (P : N -> bool) (n : nat) :
  forallb P (map N.of_nat (seq 0 n)) = true -> forall c, c < N.of_nat n -> P c = true.
Proof.
  intros H c Hc. rewrite forallb_forall in H. apply H. apply in_map_iff.
  exists (N.to_nat c). split; [lia|]. apply in_seq. lia.
Qed.

(** ** Bits *)
Lemma bits_split n : forall m x, bits (n + m) x = bits n (x / 2 ^ N.of_nat m) ++ bits m x.
Proof.
  induction n as [|n IH]; intros m x; [reflexivity|]. cbn [bits Nat.add app]. rewrite IH. f_equal.
  rewrite N.div_pow2_bits. f_equal. lia.
Qed.
Lemma bits_mod m k x : (m <= k)%nat -> bits m (x mod 2 ^ N.of_nat k) = bits m x.
Proof.
  induction m as [|m IH]; intros H; [reflexivity|]. cbn [bits]. rewrite IH by lia. f_equal.
  apply N.mod_pow2_bits_low. lia.
Qed.
Lemma bits_cat n m a b : b < 2 ^ N.of_nat m -> bits (n + m) (a * 2 ^ N.of_nat m + b) = bits n a ++ bits m b.
Proof.
  intros Hb. rewrite bits_split. f_equal.
  - f_equal. rewrite N.div_add_l, N.div_small by lia. lia.
  - rewrite <- (bits_mod m m (_ + b)) by lia. rewrite N.add_comm, N.mod_add, N.mod_small by lia. reflexivity.
Qed.
Lemma bits_length n x : length (bits n x) = n.
Proof. induction n; simpl; congruence. Qed.
Lemma bits_eq_low n : forall x y, bits n x = bits n y -> forall j, j < N.of_nat n -> N.testbit x j = N.testbit y j.
Proof.
  induction n as [|k IH]; intros x y E j Hj; [lia|]. cbn [bits] in E. injection E as E1 E2.
  destruct (N.eq_dec j (N.of_nat k)) as [->|Hne]; [assumption|]. apply IH; [assumption | lia].
Qed.
Lemma bits_inj n x y : x < 2 ^ N.of_nat n -> y < 2 ^ N.of_nat n -> bits n x = bits n y -> x = y.
Proof.
  intros Hx Hy E. apply N.bits_inj. intros j.
  rewrite <- (N.mod_small x (2 ^ N.of_nat n)), <- (N.mod_small y (2 ^ N.of_nat n)) by assumption.
  destruct (N.lt_ge_cases j (N.of_nat n)) as [L|L].
  - rewrite !N.mod_pow2_bits_low by assumption. apply (bits_eq_low n); assumption.
  - rewrite !N.mod_pow2_bits_high by assumption. reflexivity.
Qed.
Lemma bits_zero n : bits n 0 = repeat false n.
Proof. induction n as [|n IH]; [reflexivity|]. cbn [bits repeat]. rewrite IH, N.bits_0. reflexivity. Qed.

Lemma bits8x3 x y z : y < 256 -> z < 256 -> bits 8 x ++ bits 8 y ++ bits 8 z = bits 24 (x * 65536 + y * 256 + z).
Proof.
  intros Hy Hz. rewrite <- (bits_cat 8 8 y z) by (simpl; lia). rewrite <- (bits_cat 8 16 x) by (simpl; lia).
  f_equal. simpl. lia.
Qed.
Lemma bits6x4 a b c d : b < 64 -> c < 64 -> d < 64 ->
  bits 6 a ++ bits 6 b ++ bits 6 c ++ bits 6 d = bits 24 (a * 262144 + b * 4096 + c * 64 + d).
Proof.
  intros Hb Hc Hd. rewrite <- (bits_cat 6 6 c d) by (simpl; lia). rewrite <- (bits_cat 6 12 b) by (simpl; lia).
  rewrite <- (bits_cat 6 18 a) by (simpl; lia). f_equal. simpl. lia.
Qed.

Lemma quad_bits a b c d x y z : a < 64 -> b < 64 -> c < 64 -> d < 64 -> x < 256 -> y < 256 -> z < 256 ->
  bits 6 a ++ bits 6 b ++ bits 6 c ++ bits 6 d = bits 8 x ++ bits 8 y ++ bits 8 z <->
  a * 262144 + b * 4096 + c * 64 + d = x * 65536 + y * 256 + z.
Proof.
  intros. rewrite bits6x4, bits8x3 by assumption. split; [|intros ->; reflexivity].
  apply bits_inj; simpl; lia.
Qed.

(** ** Symbols *)
Definition table_of (al : alphabet) : str := match al with URL_SAFE => url_table | STANDARD => std_table end.

Lemma sym_table al v : v < 64 -> nth_error (table_of al) (N.to_nat v) = Some (sym al v).
Proof.
  intros Hv. assert (E : (match nth_error (table_of al) (N.to_nat v) with Some c => c =? sym al v | None => false end) = true).
  { revert v Hv. apply (forall_below _ 64). destruct al; vm_compute; reflexivity. }
  destruct (nth_error _ _); [apply N.eqb_eq in E; congruence | discriminate].
Qed.
Lemma unsym_sym al v : v < 64 -> unsym al (sym al v) = Some v.
Proof.
  intros Hv. assert (E : (match unsym al (sym al v) with Some c => c =? v | None => false end) = true).
  { revert v Hv. apply (forall_below _ 64). destruct al; vm_compute; reflexivity. }
  destruct (unsym al _); [apply N.eqb_eq in E; congruence | discriminate].
Qed.
Lemma unsym_bound al c v : unsym al c = Some v -> c < 128.
Proof.
  unfold unsym.
  destruct (N.leb_spec 65 c), (N.leb_spec c 90), (N.leb_spec 97 c), (N.leb_spec c 122), (N.leb_spec 48 c), (N.leb_spec c 57);
    cbn [andb]; try lia; destruct al;
    repeat (match goal with |- context [?x =? ?y] => destruct (N.eqb_spec x y) end); try discriminate; lia.
Qed.
Lemma unsym_spec al c v : unsym al c = Some v <-> v < 64 /\ nth_error (table_of al) (N.to_nat v) = Some c.
Proof.
  split.
  - intros H. pose proof (unsym_bound _ _ _ H) as Hc.
    assert (E : (match unsym al c with
                 | Some v => (v <? 64) && (c =? sym al v)
                 | None => true end) = true).
    { clear H. revert c Hc. apply (forall_below _ 128). destruct al; vm_compute; reflexivity. }
    rewrite H in E. apply andb_true_iff in E as [E1 E2]. apply N.ltb_lt in E1. apply N.eqb_eq in E2.
    split; [assumption|]. rewrite sym_table by assumption. congruence.
  - intros [Hv H]. rewrite sym_table in H by assumption. injection H as <-. apply unsym_sym. assumption.
Qed.
Lemma table_lt al v c : nth_error (table_of al) (N.to_nat v) = Some c -> v < 64.
Proof.
  intros H. assert (L : (N.to_nat v < length (table_of al))%nat) by (apply nth_error_Some; congruence).
  destruct al; vm_compute length in L; lia.
Qed.
Lemma table_unsym al v c : nth_error (table_of al) (N.to_nat v) = Some c -> unsym al c = Some v.
Proof. intros H. apply unsym_spec. split; [eapply table_lt; eauto | assumption]. Qed.
Lemma unsym_pad al : unsym al pad = None.
Proof. destruct al; reflexivity. Qed.

Lemma sym_inv al c k bs : b64_sym al c k = DOk bs -> exists v, unsym al c = Some v /\ k v = DOk bs.
Proof. unfold b64_sym. destruct (unsym al c); [eauto | discriminate]. Qed.

(** ** Strong induction by length *)
Lemma len_ind {A} (P : list A -> Prop) :
  (forall l, (forall l', (length l' < length l)%nat -> P l') -> P l) -> forall l, P l.
Proof.
  intros H l. enough (G : forall n l, (length l < n)%nat -> P l) by (apply (G (S (length l))); lia).
  clear l. induction n as [|n IH]; intros l Hl; [lia|]. apply H. intros l' Hl'. apply IH. lia.
Qed.

(** Decoding produces a text of the decoded bytes. *)
Definition good (al : alphabet) (s : str) (bs : bytes) : Prop :=
  octets bs /\ exists vs body p, spells (table_of al) vs body /\ s = body ++ repeat 61 p /\
    (p <= (4 - length vs mod 4) mod 4)%nat /\ groups_of bs vs.

Ltac unsyms := repeat match goal with H : unsym _ _ = Some _ |- _ => apply unsym_spec in H; destruct H end.

Lemma good_quad al a b c d va vb vc vd r bs :
  unsym al a = Some va -> unsym al b = Some vb -> unsym al c = Some vc -> unsym al d = Some vd ->
  good al r bs ->
  good al (a :: b :: c :: d :: r) (4 * va + vb / 16 :: (vb mod 16) * 16 + vc / 4 :: (vc mod 4) * 64 + vd :: bs).
Proof.
  intros Ha Hb Hc Hd [Ho [vs [body [p [Hsp [-> [Hp [Hv [z [Hz Hbits]]]]]]]]]]. unsyms. split.
  - repeat (constructor; [lia|]). assumption.
  - exists (va :: vb :: vc :: vd :: vs), (a :: b :: c :: d :: body), p.
    split; [repeat (constructor; [assumption|]); assumption|]. split; [reflexivity|]. split.
    + change (length (va :: vb :: vc :: vd :: vs)) with (4 + length vs)%nat.
      replace ((4 + length vs) mod 4)%nat with (length vs mod 4)%nat; [assumption|].
      replace (4 + length vs)%nat with (length vs + 1 * 4)%nat by lia. rewrite Nat.mod_add by lia. reflexivity.
    + split; [repeat (constructor; [assumption|]); assumption|]. exists z. split; [assumption|].
      cbn [flat_map]. rewrite Hbits.
      transitivity ((bits 6 va ++ bits 6 vb ++ bits 6 vc ++ bits 6 vd) ++ flat_map (bits 8) bs ++ repeat false z).
      { rewrite <- !app_assoc. reflexivity. }
      rewrite (proj2 (quad_bits va vb vc vd (4 * va + vb / 16) ((vb mod 16) * 16 + vc / 4) ((vc mod 4) * 64 + vd)
        ltac:(assumption) ltac:(assumption) ltac:(assumption) ltac:(assumption) ltac:(lia) ltac:(lia) ltac:(lia)) ltac:(lia)).
      rewrite <- !app_assoc. reflexivity.
Qed.

Lemma good_nil al : good al [] [].
Proof.
  split; [constructor|]. exists [], [], 0%nat. split; [constructor|]. split; [reflexivity|]. split; [simpl; lia|].
  split; [constructor|]. exists 0%nat. split; [lia | reflexivity].
Qed.

Lemma good_two al a b va vb p : unsym al a = Some va -> unsym al b = Some vb -> vb mod 16 = 0 -> (p <= 2)%nat ->
  good al (a :: b :: repeat 61 p) [4 * va + vb / 16].
Proof.
  intros Ha Hb Hm Hp. unsyms. split; [constructor; [lia | constructor]|].
  exists [va; vb], [a; b], p. split; [repeat constructor; assumption|]. split; [reflexivity|]. split; [simpl; lia|].
  split; [repeat constructor; assumption|]. exists 4%nat. split; [lia|]. cbn [flat_map]. rewrite !app_nil_r.
  rewrite <- (bits_zero 4). rewrite <- (bits_cat 6 6) by (simpl; lia). rewrite <- (bits_cat 8 4) by (simpl; lia).
  change (6 + 6)%nat with 12%nat. change (8 + 4)%nat with 12%nat. f_equal. simpl. lia.
Qed.
Lemma good_three al a b c va vb vc p :
  unsym al a = Some va -> unsym al b = Some vb -> unsym al c = Some vc -> vc mod 4 = 0 -> (p <= 1)%nat ->
  good al (a :: b :: c :: repeat 61 p) [4 * va + vb / 16; (vb mod 16) * 16 + vc / 4].
Proof.
  intros Ha Hb Hc Hm Hp. unsyms. split; [repeat (constructor; [lia|]); constructor|].
  exists [va; vb; vc], [a; b; c], p. split; [repeat constructor; assumption|]. split; [reflexivity|]. split; [simpl; lia|].
  split; [repeat constructor; assumption|]. exists 2%nat. split; [lia|]. cbn [flat_map]. rewrite !app_nil_r.
  rewrite <- (bits_zero 2), <- !app_assoc. rewrite <- (bits_cat 6 6 vb vc) by (simpl; lia). rewrite <- (bits_cat 6 12) by (simpl; lia).
  rewrite <- (bits_cat 8 2 _ 0) by (simpl; lia). rewrite <- (bits_cat 8 10) by (simpl; lia).
  change (6 + 12)%nat with 18%nat. change (8 + 10)%nat with 18%nat. f_equal. simpl. lia.
Qed.

Lemma suffix_sound al s bs : (length s <= 4)%nat -> b64_suffix al s = DOk bs -> good al s bs.
Proof.
  intros Hl H. destruct s as [|a [|b [|c [|d [|e s]]]]]; cbn [b64_suffix] in H.
  - injection H as <-. apply good_nil.
  - apply sym_inv in H as [va [_ H]]. discriminate.
  - apply sym_inv in H as [va [Ha H]]. apply sym_inv in H as [vb [Hb H]].
    destruct (N.eqb_spec (vb mod 16) 0) as [Hm|]; [|discriminate]. injection H as <-.
    apply (good_two al a b va vb 0); auto.
  - apply sym_inv in H as [va [Ha H]]. apply sym_inv in H as [vb [Hb H]].
    destruct (N.eqb_spec c pad) as [->|_].
    + destruct (N.eqb_spec (vb mod 16) 0) as [Hm|]; [|discriminate]. injection H as <-.
      apply (good_two al a b va vb 1); auto.
    + apply sym_inv in H as [vc [Hc H]]. destruct (N.eqb_spec (vc mod 4) 0) as [Hm|]; [|discriminate]. injection H as <-.
      apply (good_three al a b c va vb vc 0); auto.
  - apply sym_inv in H as [va [Ha H]]. apply sym_inv in H as [vb [Hb H]].
    destruct (N.eqb_spec c pad) as [->|_].
    + destruct (N.eqb_spec d pad) as [->|_]; [|discriminate].
      destruct (N.eqb_spec (vb mod 16) 0) as [Hm|]; [|discriminate]. injection H as <-.
      apply (good_two al a b va vb 2); auto.
    + apply sym_inv in H as [vc [Hc H]]. destruct (N.eqb_spec d pad) as [->|_].
      * destruct (N.eqb_spec (vc mod 4) 0) as [Hm|]; [|discriminate]. injection H as <-.
        apply (good_three al a b c va vb vc 1); auto.
      * apply sym_inv in H as [vd [Hd H]]. injection H as <-. apply good_quad; auto. apply good_nil.
  - simpl in Hl. lia.
Qed.

Lemma decode_sound al : forall s bs, b64_decode al s = DOk bs -> good al s bs.
Proof.
  intros s. induction s as [s IH] using len_ind. intros bs H.
  destruct s as [|a [|b [|c [|d [|e s]]]]]; try (apply suffix_sound; [simpl; lia | exact H]).
  change (b64_decode al (a :: b :: c :: d :: e :: s)) with
    (b64_sym al a (fun va => b64_sym al b (fun vb => b64_sym al c (fun vc => b64_sym al d (fun vd =>
        match b64_decode al (e :: s) with
        | DOk bs => DOk (4 * va + vb / 16 :: (vb mod 16) * 16 + vc / 4 :: (vc mod 4) * 64 + vd :: bs)
        | e => e
        end))))) in H.
  apply sym_inv in H as [va [Ha H]]. apply sym_inv in H as [vb [Hb H]].
  apply sym_inv in H as [vc [Hc H]]. apply sym_inv in H as [vd [Hd H]].
  destruct (b64_decode al (e :: s)) as [bs'|x|] eqn:E; try discriminate. injection H as <-.
  apply good_quad; auto. apply IH; [simpl; lia | exact E].
Qed.

(** Completeness. *)
Lemma flat_bits_length n l : length (flat_map (bits n) l) = (n * length l)%nat.
Proof. induction l as [|x l IH]; simpl; [lia|]. rewrite app_length, bits_length, IH. lia. Qed.

Lemma app_inj_len {A} (a b c d : list A) : length a = length c -> a ++ b = c ++ d -> a = c /\ b = d.
Proof.
  revert c. induction a as [|x a IH]; intros [|y c] L E; try discriminate; [auto|].
  injection E as -> E. injection L as L. destruct (IH _ L E). subst. auto.
Qed.

Lemma groups_quad bs va vb vc vd vs : octets bs -> groups_of bs (va :: vb :: vc :: vd :: vs) ->
  exists bs', bs = 4 * va + vb / 16 :: (vb mod 16) * 16 + vc / 4 :: (vc mod 4) * 64 + vd :: bs' /\
    octets bs' /\ groups_of bs' vs.
Proof.
  intros Ho [Hv [z [Hz Hb]]].
  inversion Hv as [|? ? V1 Hv1]; subst. inversion Hv1 as [|? ? V2 Hv2]; subst.
  inversion Hv2 as [|? ? V3 Hv3]; subst. inversion Hv3 as [|? ? V4 Hv4]; subst.
  assert (L : (6 * (4 + length vs) = 8 * length bs + z)%nat).
  { pose proof (f_equal (@length _) Hb) as L. rewrite app_length, !flat_bits_length, repeat_length in L.
    simpl length in L. lia. }
  destruct bs as [|x [|y [|w bs]]]; try (simpl length in L; lia).
  inversion Ho as [|? ? O1 Ho1]; subst. inversion Ho1 as [|? ? O2 Ho2]; subst. inversion Ho2 as [|? ? O3 Ho3]; subst.
  cbn [flat_map] in Hb.
  assert (Hb' : (bits 6 va ++ bits 6 vb ++ bits 6 vc ++ bits 6 vd) ++ flat_map (bits 6) vs =
                (bits 8 x ++ bits 8 y ++ bits 8 w) ++ (flat_map (bits 8) bs ++ repeat false z)).
  { rewrite <- !app_assoc. rewrite <- !app_assoc in Hb. exact Hb. }
  apply app_inj_len in Hb' as [E1 E2]; [|rewrite !app_length, !bits_length; reflexivity].
  apply quad_bits in E1; try assumption. exists bs. split.
  - assert (x = 4 * va + vb / 16 /\ y = (vb mod 16) * 16 + vc / 4 /\ w = (vc mod 4) * 64 + vd) as [-> [-> ->]] by lia.
    reflexivity.
  - split; [assumption|]. split; [assumption|]. exists z. auto.
Qed.

Lemma groups_nil bs : groups_of bs [] -> bs = [].
Proof.
  intros [_ [z [Hz Hb]]]. pose proof (f_equal (@length _) Hb) as L.
  rewrite app_length, flat_bits_length, repeat_length in L. destruct bs; [reflexivity | simpl in L; lia].
Qed.
Lemma groups_one bs v : groups_of bs [v] -> False.
Proof.
  intros [_ [z [Hz Hb]]]. pose proof (f_equal (@length _) Hb) as L.
  rewrite app_length, !flat_bits_length, repeat_length in L. simpl in L. lia.
Qed.
Lemma groups_two bs va vb : octets bs -> groups_of bs [va; vb] -> vb mod 16 = 0 /\ bs = [4 * va + vb / 16].
Proof.
  intros Ho [Hv [z [Hz Hb]]].
  inversion Hv as [|? ? V1 Hv1]; subst. inversion Hv1 as [|? ? V2 Hv2]; subst.
  pose proof (f_equal (@length _) Hb) as L. rewrite app_length, !flat_bits_length, repeat_length in L. simpl length in L.
  destruct bs as [|x [|y bs]]; try (simpl length in L; lia). inversion Ho; subst.
  assert (z = 4%nat) by (simpl in L; lia). subst z. cbn [flat_map] in Hb. rewrite !app_nil_r in Hb.
  rewrite <- (bits_zero 4) in Hb. rewrite <- (bits_cat 6 6) in Hb by (simpl; lia). rewrite <- (bits_cat 8 4) in Hb by (simpl; lia).
  apply (bits_inj 12) in Hb; [|simpl; lia|simpl; lia]. simpl in Hb.
  split; [lia|]. f_equal. lia.
Qed.
Lemma groups_three bs va vb vc : octets bs -> groups_of bs [va; vb; vc] ->
  vc mod 4 = 0 /\ bs = [4 * va + vb / 16; (vb mod 16) * 16 + vc / 4].
Proof.
  intros Ho [Hv [z [Hz Hb]]].
  inversion Hv as [|? ? V1 Hv1]; subst. inversion Hv1 as [|? ? V2 Hv2]; subst. inversion Hv2 as [|? ? V3 Hv3]; subst.
  pose proof (f_equal (@length _) Hb) as L. rewrite app_length, !flat_bits_length, repeat_length in L. simpl length in L.
  destruct bs as [|x [|y [|w bs]]]; try (simpl length in L; lia). inversion Ho as [|? ? O1 Ho1]; subst. inversion Ho1; subst.
  assert (z = 2%nat) by (simpl in L; lia). subst z. cbn [flat_map] in Hb. rewrite !app_nil_r in Hb.
  rewrite <- (bits_zero 2), <- !app_assoc in Hb. rewrite <- (bits_cat 6 6 vb vc) in Hb by (simpl; lia). rewrite <- (bits_cat 6 12) in Hb by (simpl; lia).
  rewrite <- (bits_cat 8 2 _ 0) in Hb by (simpl; lia). rewrite <- (bits_cat 8 10) in Hb by (simpl; lia).
  apply (bits_inj 18) in Hb; [|simpl; lia|simpl; lia]. simpl in Hb.
  split; [lia|]. f_equal; [lia|]. f_equal. lia.
Qed.

Lemma sym_ok al c v k : unsym al c = Some v -> b64_sym al c k = k v.
Proof. unfold b64_sym. intros ->. reflexivity. Qed.
Lemma not_pad al c v : unsym al c = Some v -> (c =? pad) = false.
Proof. intros H. apply N.eqb_neq. intros ->. rewrite unsym_pad in H. discriminate. Qed.

Lemma pads_nonempty (x : N) l p : exists y r, (x :: l) ++ repeat 61 p = y :: r.
Proof. simpl. eauto. Qed.

Lemma decode_complete al : forall vs body p bs, octets bs -> groups_of bs vs -> spells (table_of al) vs body ->
  (p <= (4 - length vs mod 4) mod 4)%nat -> b64_decode al (body ++ repeat 61 p) = DOk bs.
Proof.
  intros vs. induction vs as [vs IH] using len_ind. intros body p bs Ho Hg Hs Hp.
  destruct vs as [|va [|vb [|vc [|vd vs]]]].
  - inversion Hs; subst. simpl in Hp. assert (p = 0%nat) by lia. subst. apply groups_nil in Hg. subst. reflexivity.
  - exfalso. eapply groups_one; eauto.
  - inversion Hs as [|? a ? ? T1 Hs1]; subst. inversion Hs1 as [|? b ? ? T2 Hs2]; subst. inversion Hs2; subst.
    apply table_unsym in T1, T2. simpl in Hp. apply groups_two in Hg as [Hm ->]; [|assumption].
    apply N.eqb_eq in Hm.
    destruct p as [|[|[|p]]]; try lia; cbn [app repeat b64_decode b64_suffix]; rewrite (sym_ok al a va), (sym_ok al b vb) by assumption;
      rewrite ?N.eqb_refl, Hm; reflexivity.
  - inversion Hs as [|? a ? ? T1 Hs1]; subst. inversion Hs1 as [|? b ? ? T2 Hs2]; subst.
    inversion Hs2 as [|? c ? ? T3 Hs3]; subst. inversion Hs3; subst.
    apply table_unsym in T1, T2, T3. simpl in Hp. apply groups_three in Hg as [Hm ->]; [|assumption].
    apply N.eqb_eq in Hm.
    destruct p as [|[|p]]; try lia; cbn [app repeat b64_decode b64_suffix]; rewrite (sym_ok al a va), (sym_ok al b vb) by assumption;
      rewrite (not_pad al c vc) by assumption; rewrite (sym_ok al c vc) by assumption; rewrite ?N.eqb_refl, Hm; reflexivity.
  - inversion Hs as [|? a ? ? T1 Hs1]; subst. inversion Hs1 as [|? b ? ? T2 Hs2]; subst.
    inversion Hs2 as [|? c ? ? T3 Hs3]; subst. inversion Hs3 as [|? d ? body' T4 Hs4]; subst.
    apply table_unsym in T1, T2, T3, T4. apply groups_quad in Hg as [bs' [-> [Ho' Hg']]]; [|assumption].
    assert (Hp' : (p <= (4 - length vs mod 4) mod 4)%nat).
    { change (length (va :: vb :: vc :: vd :: vs)) with (4 + length vs)%nat in Hp.
      replace ((4 + length vs) mod 4)%nat with (length vs mod 4)%nat in Hp; [assumption|].
      replace (4 + length vs)%nat with (length vs + 1 * 4)%nat by lia. rewrite Nat.mod_add by lia. reflexivity. }
    assert (Hrec : b64_decode al (body' ++ repeat 61 p) = DOk bs') by (apply (IH vs); auto; simpl; lia).
    destruct vs as [|v0 vs].
    + inversion Hs4; subst. simpl in Hp'. assert (p = 0%nat) by lia. subst p.
      apply groups_nil in Hg'. subst bs'. cbn [app repeat b64_decode b64_suffix].
      rewrite (sym_ok al a va), (sym_ok al b vb) by assumption. rewrite (not_pad al c vc) by assumption.
      rewrite (sym_ok al c vc) by assumption. rewrite (not_pad al d vd) by assumption. rewrite (sym_ok al d vd) by assumption.
      reflexivity.
    + inversion Hs4 as [|? e ? body'' T5 Hs5]; subst.
      cbn [app] in *.
      change (b64_decode al (a :: b :: c :: d :: e :: body'' ++ repeat 61 p)) with
       (b64_sym al a (fun va => b64_sym al b (fun vb => b64_sym al c (fun vc => b64_sym al d (fun vd =>
        match b64_decode al (e :: body'' ++ repeat 61 p) with
        | DOk bs => DOk (4 * va + vb / 16 :: (vb mod 16) * 16 + vc / 4 :: (vc mod 4) * 64 + vd :: bs)
        | e => e
        end))))).
      rewrite (sym_ok al a va), (sym_ok al b vb), (sym_ok al c vc), (sym_ok al d vd) by assumption.
      rewrite Hrec. reflexivity.
Qed.

Lemma decode_iff al s bs : b64_decode al s = DOk bs <-> octets bs /\ exists p, b64_text (table_of al) bs p s.
Proof.
  split.
  - intros H. apply decode_sound in H as [Ho [vs [body [p [H1 [H2 [H3 H4]]]]]]].
    split; [assumption|]. exists p, vs, body. auto.
  - intros [Ho [p [vs [body [H1 [H2 [-> H4]]]]]]]. apply (decode_complete al vs); assumption.
Qed.

(** The fallback to the standard alphabet loses nothing. *)
Lemma unsym_std_url c v : unsym STANDARD c = Some v -> unsym URL_SAFE c = Some v \/ (unsym URL_SAFE c = None /\ (c = 43 \/ c = 47)).
Proof.
  unfold unsym. destruct ((65 <=? c) && (c <=? 90)); [auto|]. destruct ((97 <=? c) && (c <=? 122)); [auto|].
  destruct ((48 <=? c) && (c <=? 57)); [auto|]. destruct (N.eqb_spec c 43) as [->|]; [right; auto|].
  destruct (N.eqb_spec c 47) as [->|]; [right; auto | discriminate].
Qed.

Definition agrees (r : decode_result) (bs : bytes) : Prop :=
  match r with DOk bs' => bs' = bs | DInvalidByte c => c = 43 \/ c = 47 | DInvalidOther => False end.

Lemma agrees_sym c k2 bs v : unsym STANDARD c = Some v -> agrees (k2 v) bs ->
  agrees (b64_sym URL_SAFE c k2) bs.
Proof.
  intros H H2. unfold b64_sym. destruct (unsym_std_url c v H) as [E|[E1 E2]]; rewrite ?E, ?E1; assumption.
Qed.

Ltac agree_step := match goal with
  | H : b64_sym STANDARD _ _ = DOk _ |- _ =>
      let v := fresh "v" in let Hv := fresh "Hv" in
      apply sym_inv in H; destruct H as [v [Hv H]]; cbv beta in H; apply (agrees_sym _ _ _ v Hv); cbv beta
  | H : (if ?b then _ else _) = DOk _ |- _ => destruct b
  end.

Lemma url_agrees : forall s bs, b64_decode STANDARD s = DOk bs -> agrees (b64_decode URL_SAFE s) bs.
Proof.
  intros s. induction s as [s IH] using len_ind. intros bs H.
  destruct s as [|a [|b [|c [|d [|e s]]]]].
  1-5: cbn [b64_decode b64_suffix] in *; repeat agree_step; try discriminate; try (injection H as <-; reflexivity).
  change (b64_decode STANDARD (a :: b :: c :: d :: e :: s)) with
    (b64_sym STANDARD a (fun va => b64_sym STANDARD b (fun vb => b64_sym STANDARD c (fun vc => b64_sym STANDARD d (fun vd =>
        match b64_decode STANDARD (e :: s) with
        | DOk bs => DOk (4 * va + vb / 16 :: (vb mod 16) * 16 + vc / 4 :: (vc mod 4) * 64 + vd :: bs)
        | e => e
        end))))) in H.
  change (b64_decode URL_SAFE (a :: b :: c :: d :: e :: s)) with
    (b64_sym URL_SAFE a (fun va => b64_sym URL_SAFE b (fun vb => b64_sym URL_SAFE c (fun vc => b64_sym URL_SAFE d (fun vd =>
        match b64_decode URL_SAFE (e :: s) with
        | DOk bs => DOk (4 * va + vb / 16 :: (vb mod 16) * 16 + vc / 4 :: (vc mod 4) * 64 + vd :: bs)
        | e => e
        end))))).
  repeat agree_step. destruct (b64_decode STANDARD (e :: s)) as [bs'|x|] eqn:E; try discriminate. injection H as <-.
  apply IH in E; [|simpl; lia]. destruct (b64_decode URL_SAFE (e :: s)); simpl in *; [congruence | assumption | assumption].
Qed.

Lemma deserialize_b64_iff s bs : deserialize_string MBase64 s = Some bs <->
  octets bs /\ ((exists p, b64_text url_table bs p s) \/ (exists p, b64_text std_table bs p s)).
Proof.
  assert (G : deserialize_string MBase64 s = Some bs <-> b64_decode URL_SAFE s = DOk bs \/ b64_decode STANDARD s = DOk bs).
  { unfold deserialize_string. split.
    - destruct (b64_decode URL_SAFE s) as [bs'|c|] eqn:E.
      + intros H; injection H as <-. auto.
      + destruct (_ || _); [|discriminate]. destruct (b64_decode STANDARD s); try discriminate.
        intros H; injection H as <-. auto.
      + discriminate.
    - intros [->|H]; [reflexivity|]. pose proof (url_agrees s bs H) as A.
      destruct (b64_decode URL_SAFE s) as [bs'|c|]; simpl in A; [congruence | | contradiction].
      destruct A as [->| ->]; simpl; rewrite H; reflexivity. }
  rewrite G. pose proof (decode_iff URL_SAFE s bs). pose proof (decode_iff STANDARD s bs). simpl table_of in *. tauto.
Qed.

(** The encoder writes a fully padded text. *)
Lemma encode_padded al : forall bs, octets bs -> b64_padded (table_of al) bs (b64_encode al bs).
Proof.
  intros bs. induction bs as [bs IH] using len_ind. intros Ho.
  assert (Hsym : forall v, v < 64 -> nth_error (table_of al) (N.to_nat v) = Some (sym al v)) by (intros; apply sym_table; assumption).
  destruct bs as [|x [|y [|z bs]]].
  - exists 0%nat. split; [|reflexivity]. exists [], []. split; [|split; [constructor|split; [reflexivity | simpl; lia]]].
    split; [constructor|]. exists 0%nat. split; [lia | reflexivity].
  - inversion Ho; subst. exists 2%nat. split; [|reflexivity]. cbn [b64_encode].
    destruct (good_two al (sym al (x / 4)) (sym al ((x mod 4) * 16)) (x / 4) ((x mod 4) * 16) 2) as [_ G];
      [apply unsym_sym; lia | apply unsym_sym; lia | lia | lia |].
    destruct G as [vs [body [p [G1 [G2 [G3 G4]]]]]].
    replace (4 * (x / 4) + x mod 4 * 16 / 16) with x in G4 by lia.
    exists [x / 4; (x mod 4) * 16], [sym al (x / 4); sym al ((x mod 4) * 16)].
    split; [|split; [repeat constructor; apply Hsym; lia|split; [reflexivity | simpl; lia]]].
    split; [repeat constructor; lia|]. exists 4%nat. split; [lia|]. cbn [flat_map]. rewrite !app_nil_r.
    rewrite <- (bits_zero 4). rewrite <- (bits_cat 6 6) by (simpl; lia). rewrite <- (bits_cat 8 4) by (simpl; lia).
    change (6 + 6)%nat with 12%nat. change (8 + 4)%nat with 12%nat. f_equal. simpl. lia.
  - inversion Ho as [|? ? O1 Ho1]; subst. inversion Ho1; subst. exists 1%nat. split; [|reflexivity]. cbn [b64_encode].
    exists [x / 4; (x mod 4) * 16 + y / 16; (y mod 16) * 4], [sym al (x / 4); sym al ((x mod 4) * 16 + y / 16); sym al ((y mod 16) * 4)].
    split; [|split; [repeat constructor; apply Hsym; lia|split; [reflexivity | simpl; lia]]].
    split; [repeat constructor; lia|]. exists 2%nat. split; [lia|]. cbn [flat_map]. rewrite !app_nil_r.
    rewrite <- (bits_zero 2), <- !app_assoc. rewrite <- (bits_cat 6 6 _ (y mod 16 * 4)) by (simpl; lia). rewrite <- (bits_cat 6 12) by (simpl; lia).
    rewrite <- (bits_cat 8 2 _ 0) by (simpl; lia). rewrite <- (bits_cat 8 10) by (simpl; lia).
    change (6 + 12)%nat with 18%nat. change (8 + 10)%nat with 18%nat. f_equal. simpl. lia.
  - inversion Ho as [|? ? O1 Ho1]; subst. inversion Ho1 as [|? ? O2 Ho2]; subst. inversion Ho2 as [|? ? O3 Ho3]; subst.
    destruct (IH bs ltac:(simpl; lia) Ho3) as [p [[vs [body [G1 [G2 [G3 G4]]]]] G5]].
    cbn [b64_encode]. rewrite G3. rewrite G3 in G5. exists p. split.
    + exists (x / 4 :: (x mod 4) * 16 + y / 16 :: (y mod 16) * 4 + z / 64 :: z mod 64 :: vs),
        (sym al (x / 4) :: sym al ((x mod 4) * 16 + y / 16) :: sym al ((y mod 16) * 4 + z / 64) :: sym al (z mod 64) :: body).
      split; [|split; [repeat (constructor; [apply Hsym; lia|]); assumption|split; [reflexivity|]]].
      * destruct G1 as [Hv [w [Hw Hb]]]. split; [repeat (constructor; [lia|]); assumption|].
        exists w. split; [assumption|]. cbn [flat_map]. rewrite Hb.
        set (v1 := x / 4). set (v2 := (x mod 4) * 16 + y / 16). set (v3 := (y mod 16) * 4 + z / 64). set (v4 := z mod 64).
        transitivity ((bits 6 v1 ++ bits 6 v2 ++ bits 6 v3 ++ bits 6 v4) ++ flat_map (bits 8) bs ++ repeat false w).
        { rewrite <- !app_assoc. reflexivity. }
        rewrite (proj2 (quad_bits v1 v2 v3 v4 x y z ltac:(unfold v1; lia) ltac:(unfold v2; lia) ltac:(unfold v3; lia)
           ltac:(unfold v4; lia) ltac:(lia) ltac:(lia) ltac:(lia)) ltac:(unfold v1, v2, v3, v4; lia)).
        rewrite <- !app_assoc. reflexivity.
      * match goal with |- context [length (?a :: ?b :: ?c :: ?d :: vs)] => change (length (a :: b :: c :: d :: vs)) with (4 + length vs)%nat end.
        replace ((4 + length vs) mod 4)%nat with (length vs mod 4)%nat; [assumption|].
        replace (4 + length vs)%nat with (length vs + 1 * 4)%nat by lia. rewrite Nat.mod_add by lia. reflexivity.
    + match goal with |- (length (?a :: ?b :: ?c :: ?d :: ?l) mod 4 = 0)%nat => change (length (a :: b :: c :: d :: l)) with (4 + length l)%nat end.
      set (l := body ++ repeat 61 p) in *. replace (4 + length l)%nat with (length l + 1 * 4)%nat by lia. rewrite Nat.mod_add by lia. exact G5.
Qed.

(** ** Hexadecimal *)
Lemma hex_val_spec c v : hex_val c = Some v <-> hex_digit v c.
Proof.
  split.
  - intros H. assert (Hc : c < 128).
    { unfold hex_val in H. destruct (N.leb_spec 48 c), (N.leb_spec c 57), (N.leb_spec 97 c), (N.leb_spec c 102), (N.leb_spec 65 c), (N.leb_spec c 70);
        simpl in H; try discriminate; lia. }
    assert (E : (match hex_val c with
                 | Some v => match nth_error (lit "0123456789abcdef") (N.to_nat v), nth_error (lit "0123456789ABCDEF") (N.to_nat v) with
                             | Some a, Some b => (a =? c) || (b =? c) | _, _ => false end
                 | None => true end) = true).
    { clear H. revert c Hc. apply (forall_below _ 128). vm_compute. reflexivity. }
    rewrite H in E. unfold hex_digit.
    destruct (nth_error (lit "0123456789abcdef") (N.to_nat v)) as [a|]; [|discriminate].
    destruct (nth_error (lit "0123456789ABCDEF") (N.to_nat v)) as [b|]; [|discriminate].
    apply orb_true_iff in E as [E|E]; apply N.eqb_eq in E; subst; auto.
  - intros H. assert (Hv : v < 16).
    { assert ((N.to_nat v < 16)%nat); [|lia]. destruct H as [H|H];
        (assert (G : nth_error _ (N.to_nat v) <> None) by (rewrite H; discriminate)); apply nth_error_Some in G; exact G. }
    assert (E : (match nth_error (lit "0123456789abcdef") (N.to_nat v), nth_error (lit "0123456789ABCDEF") (N.to_nat v) with
                 | Some a, Some b => match hex_val a, hex_val b with Some x, Some y => (x =? v) && (y =? v) | _, _ => false end
                 | _, _ => false end) = true).
    { clear H. revert v Hv. apply (forall_below _ 16). vm_compute. reflexivity. }
    destruct H as [H|H]; rewrite H in E.
    + destruct (nth_error (lit "0123456789ABCDEF") _); [|discriminate].
      destruct (hex_val c), (hex_val n); try discriminate. apply andb_true_iff in E as [E _]. apply N.eqb_eq in E. congruence.
    + destruct (nth_error (lit "0123456789abcdef") _); [|discriminate].
      destruct (hex_val n), (hex_val c); try discriminate. apply andb_true_iff in E as [_ E]. apply N.eqb_eq in E. congruence.
Qed.

Lemma hex_decode_iff : forall s bs, hex_decode s = Some bs <-> hex_text bs s.
Proof.
  intros s. induction s as [s IH] using len_ind. intros bs. split.
  - destruct s as [|a [|b s]]; cbn [hex_decode].
    + intros H; injection H as <-. constructor.
    + discriminate.
    + destruct (hex_val a) as [x|] eqn:Ea; [|discriminate]. destruct (hex_val b) as [y|] eqn:Eb; [|discriminate].
      destruct (hex_decode s) as [bs'|] eqn:Es; [|discriminate]. intros H; injection H as <-.
      constructor; [apply hex_val_spec; assumption | apply hex_val_spec; assumption|]. apply IH; [simpl; lia | assumption].
  - intros H. destruct H as [|x y a b bs s Hx Hy Ht]; [reflexivity|].
    apply hex_val_spec in Hx, Hy. apply IH in Ht; [|simpl; lia]. cbn [hex_decode]. rewrite Hx, Hy, Ht. reflexivity.
Qed.

Lemma hex_char_val n : n < 16 -> hex_val (hex_char n) = Some n.
Proof.
  intros Hn. assert (E : (match hex_val (hex_char n) with Some v => v =? n | None => false end) = true).
  { revert n Hn. apply (forall_below _ 16). vm_compute. reflexivity. }
  destruct (hex_val _); [apply N.eqb_eq in E; congruence | discriminate].
Qed.
Lemma hex_roundtrip bs : octets bs -> hex_decode (hex_encode bs) = Some bs.
Proof.
  induction 1 as [|b bs Hb _ IH]; [reflexivity|].
  change (hex_encode (b :: bs)) with (hex_char ((b / 16) mod 16) :: hex_char (b mod 16) :: hex_encode bs).
  cbn [hex_decode]. rewrite !hex_char_val by lia. rewrite IH. do 2 f_equal. lia.
Qed.
Lemma hex_encode_lower bs c : octets bs -> In c (hex_encode bs) -> In c (lit "0123456789abcdef").
Proof.
  intros Ho Hi. unfold hex_encode in Hi. apply in_flat_map in Hi as [b [Hb Hi]].
  unfold octets in Ho. rewrite Forall_forall in Ho. apply Ho in Hb.
  assert (G : forall n, n < 16 -> existsb (N.eqb (hex_char n)) (lit "0123456789abcdef") = true).
  { apply (forall_below _ 16). vm_compute. reflexivity. }
  assert (K : forall n, n < 16 -> In (hex_char n) (lit "0123456789abcdef")).
  { intros n Hn. apply G in Hn. apply existsb_exists in Hn as [x [Hx E]]. apply N.eqb_eq in E. rewrite E. exact Hx. }
  destruct Hi as [<-|[<-|[]]]; apply K; lia.
Qed.
