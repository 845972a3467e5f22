(** What is built is what the table says. *)
From Coq Require Import List NArith ZArith Bool Lia.
From Verif Require Import Base Float64 IntParse Numbers BytesCodec Values VState LookupKey Collections Child Inputs Scalars Literal Wrappers Union TaggedUnion Tuple ModelFields TypedDict Assign Arguments Classes Interp SerOf Core CoreSpec CoreProofs CoreProofs2 CoreProofs3 CoreTable.
Import ListNotations.
Open Scope nat_scope.

Lemma bind_inv : forall A C (m : B A) (f : A -> B C) n c n', bind m f n = Built (c, n') -> exists a n1, m n = Built (a, n1) /\ f a n1 = Built (c, n').
Proof. intros A C m f n c n' E. unfold bind in E. destruct (m n) as [[a n1]| |] eqn:Em; try discriminate E. eauto. Qed.
Lemma ret_inv : forall A (a b : A) n n', ret a n = Built (b, n') -> b = a. Proof. intros A a b n n' [= <- _]. reflexivity. Qed.
Ltac inv := repeat match goal with
  | H : bind _ _ _ = Built _ |- _ => let a := fresh "a" in let n := fresh "n" in let E := fresh "E" in apply bind_inv in H; destruct H as (a & n & E & H)
  | H : ret _ _ = Built _ |- _ => apply ret_inv in H; subst
  | H : fail _ = Built _ |- _ => discriminate H
  | H : panic _ = Built _ |- _ => discriminate H
  end.
Lemma strict_is : forall o g, is_strict o g = chosen o g g_strict false. Proof. intros [b|] [g|]; reflexivity. Qed.
Lemma setting_is : forall A (o : option A) g f d, unwrap_or (setting o g f) d = chosen o g f d. Proof. intros A [b|] [g|] f d; reflexivity. Qed.
Lemma unwrap_is : forall A (o : option A) d, unwrap_or o d = or_default o d. Proof. intros A [b|] d; reflexivity. Qed.
Lemma get_is : forall A g (f : config -> option A) d, unwrap_or (get g f) d = chosen None g f d. Proof. intros A [g|] f d; reflexivity. Qed.
Lemma said_is : forall A (o : option A) g f, setting o g f = said o (in_config g f). Proof. intros. apply setting_said. Qed.
Lemma extra_is : forall o g d e n n', extra_of o g d n = Built (e, n') -> of_extra (extra_word o g) d e.
Proof.
  intros o g d e n n' E. unfold extra_of in E. unfold of_extra, extra_word. rewrite said_is in E. destruct (said o (in_config g g_extra)) as [[w|]|]; [|inv; tauto|inv; tauto].
  word w (lit "allow") X; [inv; tauto|]. word w (lit "ignore") X1; [inv; tauto|]. word w (lit "forbid") X2; inv. tauto.
Qed.
Lemma revalidate_is : forall o g r n n', revalidate_of o g n = Built (r, n') -> of_revalidate (said o (in_config g g_revalidate)) r.
Proof.
  intros o g r n n' E. unfold revalidate_of in E. unfold of_revalidate. rewrite said_is in E. destruct (said o (in_config g g_revalidate)) as [w|]; [|inv; tauto].
  word w (lit "always") X; [inv; tauto|]. word w (lit "never") X1; [inv; tauto|]. word w (lit "subclass-instances") X2; inv. tauto.
Qed.
Lemma bytes_is : forall g m n n', bytes_of g n = Built (m, n') -> of_bytes (in_config g g_bytes) m.
Proof.
  intros g m n n' E. unfold bytes_of in E. unfold of_bytes. change (get g g_bytes) with (in_config g g_bytes) in E. destruct (in_config g g_bytes) as [w|]; [|inv; tauto].
  word w (lit "utf8") X; [inv; tauto|]. word w (lit "base64") X1; [inv; tauto|]. word w (lit "hex") X2; inv. tauto.
Qed.
Lemma mode_is : forall w m n n', mode_of w n = Built (m, n') -> of_mode w m.
Proof.
  intros [w|] m n n' E; unfold mode_of in E; unfold of_mode; [|inv; tauto]. word w (lit "smart") X; [inv; tauto|]. word w (lit "left_to_right") X1; inv. tauto.
Qed.
Lemma unpacked_is : forall w u n n', unpacked_of w n = Built (u, n') -> u = true <-> w = Some (lit "unpacked-typed-dict").
Proof. intros w u n n' E. destruct (proj1 (triple_unpacked w) _ _ _ E) as (_ & _ & U). exact U. Qed.
Lemma keys_is : forall a x k n n', keys_of a x n = Built (k, n') -> collection_new a x = BOk k.
Proof. intros a x k n n' E. unfold keys_of in E. destruct (collection_new a x); inv. reflexivity. Qed.
Lemma default_is : forall k d n n', default_of k n = Built (d, n') -> of_default k d.
Proof. intros k d n n' E. unfold default_of in E. unfold of_default. destruct (hk_default k), (hk_factory k); inv; auto. Qed.
Lemma coll_is_of : forall g k, coll_is g k (coll_of g k). Proof. intros g k. unfold coll_is, coll_of. cbn. now rewrite strict_is, unwrap_is. Qed.
Lemma mapB_inv : forall A C (f : A -> B C) (R : A -> C -> Prop) l, Forall (fun a => forall n c n', f a n = Built (c, n') -> R a c) l -> forall n r n', mapB f l n = Built (r, n') -> Forall2 R l r.
Proof. intros A C f R l F. induction F as [|a l E F IH]; intros n r n' H; cbn [mapB] in H; inv; [constructor|]. constructor; [eapply E; eassumption|eapply IH; eassumption]. Qed.

Section Build.
Variable name_of : schema -> str.
Variable compile : bool -> str -> option (str -> bool + pyexc).
Notation build := (build name_of compile).
Notation reads := (reads name_of compile).
Definition told (c : core) : Prop := forall g n s n', build g c n = Built (s, n') -> reads g c s.
Lemma opt_inv : forall g o, all_opt told o -> forall n r n', optB (build g) o n = Built (r, n') -> opt_all2 (reads g) o r.
Proof. intros g [c|] T n r n' E; cbn in *; inv; (try now constructor); constructor; eapply T; eassumption. Qed.
Lemma extras_inv : forall g e o, all_opt told o -> forall n r n', extras_B (build g) e o n = Built (r, n') -> opt_all2 (reads g) o r.
Proof. intros g e [c|] T n r n' E; cbn in *; [destruct e|]; inv; (try now constructor); constructor; eapply T; eassumption. Qed.
Lemma any_inv : forall g o r, opt_all2 (reads g) o r -> opt_or_any (reads g) o (unwrap_or r SAny).
Proof. intros g o r [|c s H]; cbn; now constructor. Qed.
Lemma pattern_inv : forall g k p n n', pattern_of compile k g n = Built (p, n') -> pattern_is compile g k p.
Proof.
  intros g k p n n' E. unfold pattern_of in E. unfold pattern_is. destruct (sk_pattern k) as [[t|m]|]; inv; auto. cbv zeta in E. rewrite setting_is in E.
  generalize dependent (chosen (sk_regex k) g g_regex (lit "rust-regex")). intros w E. word w (lit "rust-regex") X.
  - destruct (compile false t) as [m|]; inv. exists m. auto.
  - word w (lit "python-re") X1; [|inv]. destruct (compile true t) as [m|]; inv. exists m. auto.
Qed.
Lemma params_inv : forall g l, Forall (fun p => told (snd p)) l -> forall d kw n r n', params_B (build g) d kw l n = Built (r, n') ->
  Forall2 (fun p x => pi_name (fst x) = qk_name (fst p) /\ pi_mode (fst x) = or_default (qk_mode (fst p)) PosOrKw /\ collection_new (qk_alias (fst p)) (qk_name (fst p)) = BOk (pi_keys (fst x)) /\ reads g (snd p) (snd x)) l r.
Proof.
  intros g l F. induction F as [|p l T F IH]; intros d kw n r n' E; cbn [params_B] in E; inv; [constructor|].
  destruct (omits a); [discriminate E|]. destruct (_ && _); [discriminate E|]. inv. constructor; [|eapply IH; eassumption]. cbn. rewrite unwrap_is.
  repeat split; [eapply keys_is; eassumption|eapply T; eassumption].
Qed.
Lemma steps_list : forall r, exists rs, Forall2 (fun s steps => s = SChain steps \/ ((forall t, s <> SChain t) /\ steps = [s])) r rs /\ flat_map steps_of r = concat rs.
Proof.
  induction r as [|s r (rs & F & E)]; [exists []; split; [constructor|reflexivity]|]. exists (steps_of s :: rs). cbn. rewrite E. split; [|reflexivity]. constructor; [|exact F].
  destruct s; try (right; split; [discriminate|reflexivity]). now left.
Qed.
Theorem build_reads : forall c, told c.
Proof.
  apply core_induction; intros; intros gg n s n' E; cbn [Core.build] in E.
  all: try (inv; rewrite ?strict_is; constructor; now eauto).
  - (* int *) inv. rewrite strict_is. destruct (unbounded c) eqn:U; [|apply RdInt; intros ->; discriminate U].
    replace c with no_bounds; [constructor|]. destruct c as [[] [] [] [] []]; try discriminate U. reflexivity.
  - (* float *) inv. rewrite strict_is. constructor; try reflexivity. cbn. apply setting_is.
  - (* str *) inv. constructor; try reflexivity; cbn; try apply strict_is; try apply setting_is; try apply said_is. eapply pattern_inv; eassumption.
  - (* bytes *) inv. constructor; try reflexivity; cbn; [apply strict_is|eapply bytes_is; eassumption].
  - (* literal *) destruct l; inv. constructor.
  - (* list *) inv. destruct (opt_inv _ _ H _ _ _ E0) as [|c t R]; [apply RdListUnsaid, coll_is_of|].
    destruct t; try (apply RdList; [apply coll_is_of|exact R|discriminate]). apply RdListAny; [apply coll_is_of|exact R].
  - (* set *) inv. constructor; [apply coll_is_of|]. eapply any_inv, opt_inv; eassumption.
  - (* tuple *) inv. destruct (match v with Some i => _ | None => _ end); [discriminate E|]. inv. apply RdTuple; cbn; [apply strict_is|reflexivity|reflexivity|reflexivity|apply unwrap_is|].
    eapply mapB_inv; [|eassumption]. eapply Forall_impl; [|exact H]. intros c T n2 t n3. apply T.
  - (* dict *) inv. constructor; [apply coll_is_of| |]; eapply any_inv, opt_inv; eassumption.
  - (* default *) inv. cbv zeta in E. destruct (negb _); [discriminate E|]. inv. rewrite setting_is, unwrap_is. constructor; [eapply default_is; eassumption|eapply H; eassumption].
  - (* chain *) inv. assert (R : Forall2 (reads gg) l a). { eapply mapB_inv; [|eassumption]. eapply Forall_impl; [|exact H]. intros c T n2 t n3. apply T. }
    destruct (steps_list a) as (rs & F & S).
    assert (C : 2 <= length (flat_map steps_of a) -> reads gg (KChain l) (SChain (flat_map steps_of a))). { rewrite S. intros L. eapply RdChain; eassumption. }
    destruct (flat_map steps_of a) as [|x [|y t]] eqn:Fl; inv; [|apply C; cbn; lia].
    assert (Q : Forall2 result l a).
    { assert (M : Forall (fun c => triple (build gg c) (good compile gg c) (mentions c) (result c)) l). { apply Forall_forall. intros c _. apply build_meets. }
      destruct (proj1 (triple_map _ _ (build gg) (good compile gg) mentions result l M) _ _ _ E0) as (_ & _ & Q). exact Q. }
    assert (G : exists c, l = [c] /\ reads gg c x).
    { inversion R as [|c s0 l' r' R1 R2]; subst; [discriminate Fl|]. inversion Q as [|c0 s0' l0' r0' Q1 Q2]; subst. inversion R2 as [|c2 s2 l2 r2 R3 R4]; subst.
      - exists c. split; [reflexivity|]. cbn [flat_map] in Fl. rewrite app_nil_r in Fl. destruct s0; cbn [steps_of] in Fl; try (injection Fl as <-; exact R1).
        exfalso. destruct Q1 as [Fi _]. inversion Fi as [? [So _] _]; subst. cbn in So. apply proj1 in So. lia.
      - exfalso. inversion Q2 as [|c2' s2' l2' r2' Q3 Q4]; subst. cbn [flat_map] in Fl. destruct (steps_fine _ s0 (proj1 Q1)) as [N1 _]. destruct (steps_fine _ s2 (proj1 Q3)) as [N2 _].
        destruct (steps_of s0) as [|q1 q1s]; [contradiction|]. destruct (steps_of s2) as [|q2 q2s]; [contradiction|]. cbn [app] in Fl. injection Fl as _ Fl. destruct q1s; discriminate Fl. }
    destruct G as (c & -> & G). now apply RdStep.
  - (* custom error *) destruct t; inv. constructor. eapply H; eassumption.
  - (* union *) inv. assert (R : Forall2 (fun p x => reads gg (fst p) (fst x) /\ snd x = or_default (snd p) (name_of (fst x))) l a).
    { eapply mapB_inv; [|eassumption]. eapply Forall_impl; [|exact H]. intros p T n2 t n3 X. cbn in X. inv. cbn. split; [eapply T; eassumption|apply unwrap_is]. }
    apply mode_is in E1. destruct a as [|x [|y t]].
    + inv.
    + inversion R as [|p ? ? ? [R1 R2] R3]; subst. inversion R3; subst. rewrite unwrap_is in E. destruct (or_default col true) eqn:Cl; inv.
      * destruct p. now apply RdOnly.
      * apply RdUnion; auto. intros q _. destruct col as [[]|]; try discriminate Cl. reflexivity.
    + inv. apply RdUnion; auto. intros q ->. inversion R as [|? ? ? ? _ R3]; subst. inversion R3.
  - (* tagged *) inv. rewrite setting_is. constructor. eapply mapB_inv; [|eassumption]. eapply Forall_impl; [|exact H]. intros p T n2 t n3 X. cbn in X. inv. cbn. split; [reflexivity|eapply T; eassumption].
  - (* model fields *) inv. constructor; cbn; [eapply extra_is; eassumption|apply strict_is|apply setting_is|split; [apply get_is|now split]| |eapply extras_inv; eassumption|eapply extras_inv; eassumption].
    eapply mapB_inv; [|eassumption]. eapply Forall_impl; [|exact H]. intros p T m2 t m3 X. unfold model_field_B in X. inv. cbn. rewrite unwrap_is. repeat split; [eapply keys_is; eassumption|eapply T; eassumption].
  - (* typed dict *) inv. constructor; cbn; [eapply extra_is; eassumption|apply strict_is|reflexivity|split; [apply get_is|now split]| |eapply extras_inv; eassumption].
    eapply mapB_inv; [|eassumption]. eapply Forall_impl; [|exact H]. intros p T m2 t m3 X. unfold typed_dict_field_B in X. inv. cbv zeta in X. destruct (match ek_required (fst p) with Some true => _ | _ => _ end); [discriminate X|].
    destruct (_ && _); [discriminate X|]. inv. cbn. rewrite unwrap_is, setting_is. repeat split; [eapply keys_is; eassumption|eapply T; eassumption].
  - (* arguments *) inv. destruct (_ && _); [discriminate E|]. inv. constructor; cbn; try apply said_is; [eapply unpacked_is; eassumption|eapply extra_is; eassumption|apply get_is|eapply params_inv; eassumption|eapply opt_inv; eassumption|eapply opt_inv; eassumption].
  - (* dataclass arguments *) inv. constructor; cbn; [apply unwrap_is|eapply extra_is; eassumption|split; [apply get_is|now split]| |eapply extras_inv; eassumption].
    eapply mapB_inv; [|eassumption]. eapply Forall_impl; [|exact H]. intros p T m2 t m3 X. unfold dataclass_field_B in X. inv. destruct (omits _); [discriminate X|]. inv. cbn. rewrite !unwrap_is. repeat split; [eapply keys_is; eassumption|eapply T; eassumption].
  - (* model *) inv. constructor; cbn; try reflexivity; [eapply H; eassumption|eapply revalidate_is; eassumption].
  - (* dataclass *) inv. constructor; cbn; try reflexivity; [eapply H; eassumption|eapply revalidate_is; eassumption|apply strict_is].
Qed.
End Build.
