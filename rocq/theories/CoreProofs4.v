(** Which schemas can be built, and what is built: panics, empty configs, definitions. *)
From Coq Require Import List NArith ZArith Bool Lia.
From Verif Require Import Base Float64 IntParse Numbers BytesCodec Values VState LookupKey Collections Child Inputs Scalars Literal Wrappers Union TaggedUnion Tuple ModelFields TypedDict Assign Arguments Classes Interp InterpSpec SerOf Core CoreSpec CoreProofs CoreProofs2 CoreProofs3.
Import ListNotations.
Open Scope nat_scope.

(** ** Panics *)
Definition calm {A} (m : B A) : Prop := forall n, m n <> Panics.
Lemma calm_ret : forall A (a : A), calm (ret a). Proof. discriminate. Qed.
Lemma calm_fail : forall A, calm (@fail A). Proof. discriminate. Qed.
Lemma calm_bind : forall A C (m : B A) (f : A -> B C), calm m -> (forall a, calm (f a)) -> calm (bind m f).
Proof. intros A C m f H K n. unfold bind. specialize (H n). destruct (m n) as [[a n']| |]; cbn; [apply K|discriminate|contradiction]. Qed.
Lemma calm_map : forall A C (f : A -> B C) l, Forall (fun a => calm (f a)) l -> calm (mapB f l).
Proof. intros A C f l F. induction F; cbn [mapB]; [apply calm_ret|]. apply calm_bind; [assumption|]. intros c. apply calm_bind; [assumption|]. intros r. apply calm_ret. Qed.
Lemma calm_opt : forall (f : core -> B schema) o, all_opt (fun a => calm (f a)) o -> calm (optB f o).
Proof. intros f [c|] H; [|apply calm_ret]. apply calm_bind; [exact H|]. intros s. apply calm_ret. Qed.
Lemma calm_extras : forall (f : core -> B schema) e o, all_opt (fun a => calm (f a)) o -> calm (extras_B f e o).
Proof. intros f e [c|] H; cbn; [|apply calm_ret]. destruct e; try apply calm_fail. apply calm_bind; [exact H|]. intros s. apply calm_ret. Qed.
Lemma calm_params : forall (f : core -> B schema) l, Forall (fun p => calm (f (snd p))) l -> forall d kw, calm (params_B f d kw l).
Proof.
  intros f l F. induction F; intros d kw; cbn [params_B]; [apply calm_ret|]. apply calm_bind; [assumption|]. intros s.
  destruct (omits s); [apply calm_fail|]. destruct (_ && _); [apply calm_fail|]. apply calm_bind; [unfold keys_of; destruct (collection_new _ _); discriminate|]. intros ks.
  apply calm_bind; [apply IHF|]. intros r. apply calm_ret.
Qed.
Ltac calm_word := intros ?; repeat match goal with |- context [match ?x with _ => _ end] => destruct x end; discriminate.
Lemma calm_extra : forall o g d, calm (extra_of o g d). Proof. intros o g d. unfold extra_of. calm_word. Qed.
Lemma calm_revalidate : forall o g, calm (revalidate_of o g). Proof. intros o g. unfold revalidate_of. calm_word. Qed.
Lemma calm_bytes : forall g, calm (bytes_of g). Proof. intros g. unfold bytes_of. calm_word. Qed.
Lemma calm_mode : forall w, calm (mode_of w). Proof. intros w. unfold mode_of. calm_word. Qed.
Lemma calm_unpacked : forall w, calm (unpacked_of w). Proof. intros w. unfold unpacked_of. calm_word. Qed.
Lemma calm_keys : forall a n, calm (keys_of a n). Proof. intros a n. unfold keys_of. calm_word. Qed.
Lemma calm_default : forall k, calm (default_of k). Proof. intros k. unfold default_of. calm_word. Qed.

Section Build.
Variable name_of : schema -> str.
Variable compile : bool -> str -> option (str -> bool + pyexc).
Notation build := (build name_of compile).
Notation good := (good compile).

Lemma calm_pattern : forall k g, calm (pattern_of compile k g). Proof. intros k g. unfold pattern_of. calm_word. Qed.
Definition quiet (c : core) : Prop := forall g, (forall g' x, within g c g' x -> ~ panicking x) -> calm (build g c).
Lemma quiet_list : forall A (h : A -> core) g g' c l, Forall (fun a => quiet (h a)) l -> incl (map (fun a => (g', h a)) l) (parts g c) -> (forall g' x, within g c g' x -> ~ panicking x) -> Forall (fun a => calm (build g' (h a))) l.
Proof.
  intros A h g g' c l F I N. rewrite Forall_forall in *. intros a X. apply (F a X). intros g2 x W. apply (N g2 x). eapply WPart; [apply I, in_map_iff; exists a; split; [reflexivity|exact X]|exact W].
Qed.
Lemma quiet_opt : forall g g' c o, all_opt quiet o -> incl (map (pair g') (opt_list o)) (parts g c) -> (forall g' x, within g c g' x -> ~ panicking x) -> all_opt (fun a => calm (build g' a)) o.
Proof.
  intros g g' c [a|] F I N; [|exact Logic.I]. apply F. intros g2 x W. apply (N g2 x). eapply WPart; [apply I; now left|exact W].
Qed.
Lemma quiet_one : forall g g' c a, quiet a -> In (g', a) (parts g c) -> (forall g' x, within g c g' x -> ~ panicking x) -> calm (build g' a).
Proof. intros g g' c a F I N. apply F. intros g2 x W. apply (N g2 x). eapply WPart; [exact I|exact W]. Qed.
Ltac inl := first [apply incl_refl|apply incl_appl; inl|apply incl_appr; inl].
Ltac inparts := cbn [parts]; rewrite ?map_app; inl.
Ltac go N := first
  [apply calm_ret|apply calm_fail|apply calm_extra|apply calm_revalidate|apply calm_bytes|apply calm_mode|apply calm_unpacked|apply calm_keys|apply calm_default|apply calm_pattern
  |apply calm_bind; [go N|intros ?; go N]
  |eapply calm_opt, quiet_opt; [eassumption| |exact N]; inparts
  |eapply calm_extras, quiet_opt; [eassumption| |exact N]; inparts
  |eapply calm_params, (quiet_list _ snd); [eassumption| |exact N]; inparts
  |eapply quiet_one; [eassumption| |exact N]; cbn [parts]; rewrite ?in_app_iff; cbn [In]; tauto
  |match goal with |- calm (match ?x with _ => _ end) => destruct x; go N end
  |idtac].
Lemma mapB_length : forall A C (f : A -> B C) l n r n', mapB f l n = Built (r, n') -> length r = length l.
Proof.
  intros A C f l. induction l as [|a l IH]; intros n r n' E; cbn [mapB] in E; [now injection E as <- _|]. unfold bind in E.
  destruct (f a n) as [[c n1]| |]; try discriminate E. cbn in E. destruct (mapB f l n1) as [[r1 n2]| |] eqn:E1; try discriminate E. cbn in E. injection E as <- _. cbn. f_equal. eapply IH, E1.
Qed.
Lemma build_quiet : forall c, quiet c.
Proof.
  assert (Tup : forall k v l, Forall quiet l -> quiet (KTuple k v l)).
  { intros k v l H g N n. cbn [Core.build]. unfold bind. assert (C : calm (mapB (build g) l)) by (eapply calm_map, (quiet_list _ (fun c => c)); [eassumption| |exact N]; inparts).
    specialize (C n). destruct (mapB (build g) l n) as [[r n']| |] eqn:E; cbn; [|discriminate|contradiction]. apply mapB_length in E. rewrite E.
    specialize (N g _ (WSelf _ _)). destruct v as [i|]; [|discriminate]. cbn in N. destruct (length l <=? i) eqn:L; [apply Nat.leb_le in L; contradiction|discriminate]. }
  apply core_induction; intros; try (apply Tup; assumption); intros gg N; cbn [Core.build]; go N.
  all: try match goal with H : Forall _ _ |- calm (mapB _ _) => apply calm_map end.
  - eapply (quiet_list _ (fun c => c)); [eassumption| |exact N]; inparts.
  - now destruct (N gg _ (WSelf _ _)).
  - eapply Forall_impl; [|eapply (quiet_list _ fst); [eassumption| |exact N]; inparts]. intros a C. cbn in C. apply calm_bind; [exact C|discriminate].
  - eapply Forall_impl; [|eapply (quiet_list _ snd); [eassumption| |exact N]; inparts]. intros a C. cbn in C. apply calm_bind; [exact C|discriminate].
  - eapply Forall_impl; [|eapply (quiet_list _ snd); [eassumption| |exact N]; inparts]. intros x C. cbn in C. apply calm_bind; [exact C|]. intros s. apply calm_bind; [apply calm_keys|discriminate].
  - eapply Forall_impl; [|eapply (quiet_list _ snd); [eassumption| |exact N]; inparts]. intros x C. cbn in C. unfold typed_dict_field_B. cbv zeta. apply calm_bind; [exact C|]. intros s.
    destruct (match ek_required (fst x) with Some true => has_default s | _ => false end); [apply calm_fail|]. destruct (_ && _); [apply calm_fail|]. apply calm_bind; [apply calm_keys|discriminate].
  - eapply Forall_impl; [|eapply (quiet_list _ snd); [eassumption| |exact N]; inparts]. intros x C. cbn in C. unfold dataclass_field_B. apply calm_bind; [exact C|]. intros s.
    destruct (omits s); [apply calm_fail|]. apply calm_bind; [apply calm_keys|discriminate].
  - eapply Forall_impl; [|eapply (quiet_list _ snd); [eassumption| |exact N]; inparts]. intros a C. cbn in C. apply calm_bind; [exact C|]. intros s n. unfold define. destruct (find_def _ _); discriminate.
  - discriminate.
Qed.

(** ** An empty config *)
Lemma mapB_ext : forall A C (f f' : A -> B C) l, Forall (fun a => forall k, f a k = f' a k) l -> forall k, mapB f l k = mapB f' l k.
Proof. intros A C f f' l F. induction F as [|a l E F IH]; intros k; [reflexivity|]. cbn [mapB]. apply bind_ext; [apply E|]. intros c n. apply bind_ext; [apply IH|]. reflexivity. Qed.
Lemma optB_ext : forall (f f' : core -> B schema) o, all_opt (fun c => forall k, f c k = f' c k) o -> forall k, optB f o k = optB f' o k.
Proof. intros f f' [c|] E k; cbn in *; [|reflexivity]. apply bind_ext; [apply E|reflexivity]. Qed.
Lemma extras_ext : forall (f f' : core -> B schema) e o, all_opt (fun c => forall k, f c k = f' c k) o -> forall k, extras_B f e o k = extras_B f' e o k.
Proof. intros f f' e [c|] E k; cbn in *; [|reflexivity]. destruct e; try reflexivity. apply bind_ext; [apply E|reflexivity]. Qed.
Lemma params_ext : forall (f f' : core -> B schema) l, Forall (fun p => forall k, f (snd p) k = f' (snd p) k) l -> forall d kw k, params_B f d kw l k = params_B f' d kw l k.
Proof.
  intros f f' l F. induction F as [|p l E F IH]; intros d kw k; [reflexivity|]. cbn [params_B]. apply bind_ext; [apply E|]. intros s n.
  destruct (omits s); [reflexivity|]. destruct (_ && _); [reflexivity|]. apply bind_ext; [reflexivity|]. intros ks n'. apply bind_ext; [apply IH|reflexivity].
Qed.
Definition plain (c : core) : Prop := (forall x, shares c x -> same_without x) -> forall k, build (Some no_config) c k = build None c k.
Lemma plain_list : forall A (h : A -> core) c l, Forall (fun a => plain (h a)) l -> of_class c = false -> incl (map (fun a => (None, h a)) l) (parts None c) -> (forall x, shares c x -> same_without x) ->
  Forall (fun a => forall k, build (Some no_config) (h a) k = build None (h a) k) l.
Proof.
  intros A h c l F O I N. rewrite Forall_forall in *. intros a X. apply (F a X). intros x W. apply N. eapply SPart; [exact O|apply I, in_map_iff; exists a; split; [reflexivity|exact X]|exact W].
Qed.
Lemma plain_opt : forall c o, all_opt plain o -> of_class c = false -> incl (map (pair None) (opt_list o)) (parts None c) -> (forall x, shares c x -> same_without x) ->
  all_opt (fun a => forall k, build (Some no_config) a k = build None a k) o.
Proof. intros c [a|] F O I N; [|exact Logic.I]. cbn in *. apply F. intros x W. apply N. eapply SPart; [exact O|apply I; now left|exact W]. Qed.
Lemma plain_one : forall c a, plain a -> of_class c = false -> In (None, a) (parts None c) -> (forall x, shares c x -> same_without x) -> forall k, build (Some no_config) a k = build None a k.
Proof. intros c a F O I N. apply F. intros x W. apply N. eapply SPart; [exact O|exact I|exact W]. Qed.
Lemma empty_pattern : forall k, pattern_of compile k (Some no_config) = pattern_of compile k None.
Proof. intros k. unfold pattern_of. now destruct (sk_regex k). Qed.
Ltac eo N := first
  [reflexivity
  |apply bind_ext; [eo N|intros ? ?; eo N]
  |refine (optB_ext _ _ _ (plain_opt _ _ _ _ _ N) _); [eassumption|reflexivity|inparts]
  |refine (extras_ext _ _ _ _ (plain_opt _ _ _ _ _ N) _); [eassumption|reflexivity|inparts]
  |refine (params_ext _ _ _ (plain_list _ snd _ _ _ _ _ N) _ _ _); [eassumption|reflexivity|inparts]
  |refine (plain_one _ _ _ _ _ N _); [eassumption|reflexivity|cbn [parts]; rewrite ?in_app_iff; cbn [In]; tauto]
  |match goal with |- (if ?x then _ else _) _ = (if ?y then _ else _) _ => change y with x; destruct x; eo N end
  |idtac].
Lemma build_plain : forall c, plain c.
Proof.
  apply core_induction; intros; intros N k'; cbn [Core.build]; eo N.
  - refine (mapB_ext _ _ _ _ _ (plain_list _ (fun c => c) _ _ _ _ _ N) _); [eassumption|reflexivity|inparts].
  - refine (mapB_ext _ _ _ _ _ (plain_list _ (fun c => c) _ _ _ _ _ N) _); [eassumption|reflexivity|inparts].
  - destruct t; [|reflexivity]. eo N.
  - now rewrite (N _ (SSelf _)).
  - now rewrite (N _ (SSelf _)).
  - now rewrite (N _ (SSelf _)).
  - now rewrite (N _ (SSelf _)).
  - apply mapB_ext. refine (Forall_impl _ _ (plain_list _ fst _ _ _ _ _ N)); [|eassumption|reflexivity|inparts]. intros p E n. apply bind_ext; [apply E|reflexivity].
  - apply mapB_ext. refine (Forall_impl _ _ (plain_list _ snd _ _ _ _ _ N)); [|eassumption|reflexivity|inparts]. intros p E n. apply bind_ext; [apply E|reflexivity].
  - apply mapB_ext. refine (Forall_impl _ _ (plain_list _ snd _ _ _ _ _ N)); [|eassumption|reflexivity|inparts]. intros p E n. apply bind_ext; [apply E|reflexivity].
  - apply mapB_ext. refine (Forall_impl _ _ (plain_list _ snd _ _ _ _ _ N)); [|eassumption|reflexivity|inparts]. intros p E n. apply bind_ext; [apply E|reflexivity].
  - apply mapB_ext. refine (Forall_impl _ _ (plain_list _ snd _ _ _ _ _ N)); [|eassumption|reflexivity|inparts]. intros p E n. apply bind_ext; [apply E|reflexivity].
Qed.

(** ** Definitions *)
Definition visits {A} (m : B A) (v : option config * core -> Prop) : Prop := forall n a n', m n = Built (a, n') -> incl (kn_defs n) (kn_defs n') /\
  forall p, v p -> exists n1 s n2, build (fst p) (snd p) n1 = Built (s, n2) /\ incl (kn_defs n2) (kn_defs n').
Lemma visits_bind : forall A C (m : B A) (f : A -> B C) v v', visits m v -> (forall a, visits (f a) v') -> visits (bind m f) (fun p => v p \/ v' p).
Proof.
  intros A C m f v v' H K n c n' E. unfold bind in E. destruct (m n) as [[a n1]| |] eqn:Em; try discriminate E. cbn in E.
  destruct (H _ _ _ Em) as [I1 V1]. destruct (K _ _ _ _ E) as [I2 V2]. split; [eapply incl_tran; eassumption|].
  intros p [V|V]; [|now apply V2]. destruct (V1 p V) as (n2 & s & n3 & B & X). exists n2, s, n3. split; [exact B|eapply incl_tran; eassumption].
Qed.
Lemma visits_weak : forall A (m : B A) (v v' : option config * core -> Prop), visits m v -> (forall p, v' p -> v p) -> visits m v'.
Proof. intros A m v v' H K n a n' E. destruct (H _ _ _ E) as [I V]. split; [exact I|]. intros p P. now apply V, K. Qed.
Lemma visits_build : forall g c, visits (build g c) (fun p => p = (g, c)).
Proof.
  intros g c n a n' E. destruct (proj1 (build_meets name_of compile c g) _ _ _ E) as (_ & (new & D & _) & _). split; [rewrite D; apply incl_appl, incl_refl|].
  intros p ->. exists n, a, n'. split; [exact E|apply incl_refl].
Qed.
Definition still {A} (m : B A) : Prop := forall n a n', m n = Built (a, n') -> n' = n.
Lemma visits_still : forall A (m : B A), still m -> visits m (fun _ => False).
Proof. intros A m H n a n' E. rewrite (H _ _ _ E). split; [apply incl_refl|contradiction]. Qed.
Lemma visits_still_bind : forall A C (m : B A) (f : A -> B C) v, still m -> (forall a, visits (f a) v) -> visits (bind m f) v.
Proof. intros A C m f v H K. apply (visits_weak _ _ (fun p => False \/ v p)); [apply (visits_bind _ _ m f (fun _ => False) v); [apply visits_still, H|exact K]|]. auto. Qed.
Lemma visits_map : forall A C (f : A -> B C) v l, (forall a, In a l -> visits (f a) (v a)) -> visits (mapB f l) (fun p => exists a, In a l /\ v a p).
Proof.
  intros A C f v l. induction l as [|a l IH]; intros H; cbn [mapB].
  - eapply visits_weak; [apply visits_still; intros n b n' [= _ <-]; reflexivity|]. intros p (a & [] & _).
  - eapply visits_weak; [apply visits_bind; [apply (H a); now left|]; intros c; apply visits_bind; [apply IH; intros b I; apply H; now right|]; intros r; apply visits_still; intros n b n' [= _ <-]; reflexivity|].
    intros p (b & [<-|I] & V); [now left|]. right. left. eauto.
Qed.
Ltac still_word := intros ?; intros; repeat match goal with H : context [match ?x with _ => _ end] |- _ => destruct x end; try discriminate; match goal with H : Built _ = Built _ |- _ => now injection H end.
Lemma still_ret : forall A (a : A), still (ret a). Proof. intros A a n b n' [= _ <-]. reflexivity. Qed.
Lemma still_fail : forall A, still (@fail A). Proof. discriminate. Qed.
Lemma still_panic : forall A, still (@panic A). Proof. discriminate. Qed.
Lemma still_extra : forall o g d, still (extra_of o g d). Proof. intros o g d. unfold extra_of, ret, fail. still_word. Qed.
Lemma still_revalidate : forall o g, still (revalidate_of o g). Proof. intros o g. unfold revalidate_of, ret, fail. still_word. Qed.
Lemma still_bytes : forall g, still (bytes_of g). Proof. intros g. unfold bytes_of, ret, fail. still_word. Qed.
Lemma still_mode : forall w, still (mode_of w). Proof. intros w. unfold mode_of, ret, fail. still_word. Qed.
Lemma still_unpacked : forall w, still (unpacked_of w). Proof. intros w. unfold unpacked_of, ret, fail. still_word. Qed.
Lemma still_keys : forall a n, still (keys_of a n). Proof. intros a n. unfold keys_of, ret, fail. still_word. Qed.
Lemma still_default : forall k, still (default_of k). Proof. intros k. unfold default_of, ret, fail. still_word. Qed.
Lemma visits_opt : forall g o, visits (optB (build g) o) (fun p => In p (map (pair g) (opt_list o))).
Proof.
  intros g [c|]; cbn; [|eapply visits_weak; [apply visits_still, still_ret|intros p []]].
  eapply visits_weak; [apply visits_bind; [apply visits_build|]; intros s; apply visits_still, still_ret|]. intros p [<-|[]]. now left.
Qed.
Lemma visits_extras : forall g e o, visits (extras_B (build g) e o) (fun p => In p (map (pair g) (opt_list o))).
Proof.
  intros g e [c|]; cbn; [|eapply visits_weak; [apply visits_still, still_ret|intros p []]]. destruct e; try (intros n a n' E; discriminate E).
  eapply visits_weak; [apply visits_bind; [apply visits_build|]; intros s; apply visits_still, still_ret|]. intros p [<-|[]]. now left.
Qed.
Lemma visits_if : forall A (b : bool) (m : B A) v, visits m v -> visits (if b then fail else m) v.
Proof. intros A [] m v H; [intros n a n' E; discriminate E|exact H]. Qed.
Lemma visits_panic_if : forall A (b : bool) (m : B A) v, visits m v -> visits (if b then panic else m) v.
Proof. intros A [] m v H; [intros n a n' E; discriminate E|exact H]. Qed.
Lemma visits_params : forall g l d kw, visits (params_B (build g) d kw l) (fun p => In p (map (fun q => (g, snd q)) l)).
Proof.
  intros g l. induction l as [|q l IH]; intros d kw; cbn [params_B map]; [eapply visits_weak; [apply visits_still, still_ret|intros p []]|].
  eapply visits_weak; [apply visits_bind; [apply visits_build|]; intros s; apply visits_if, visits_if, visits_still_bind; [apply still_keys|]; intros ks; apply visits_bind; [apply IH|]; intros r; apply visits_still, still_ret|].
  intros p [<-|I]; [now left|]. right. now left.
Qed.
Lemma visits_members : forall A C (h : A -> core) (f : A -> schema -> B C) g l, (forall a s, visits (f a s) (fun _ => False)) ->
  visits (mapB (fun a => bind (build g (h a)) (f a)) l) (fun p => In p (map (fun a => (g, h a)) l)).
Proof.
  intros A C h f g l H. eapply visits_weak; [apply visits_map with (v := fun a p => p = (g, h a)); intros a _; eapply visits_weak; [apply visits_bind; [apply visits_build|apply H]|now left]|].
  intros p I. apply in_map_iff in I. destruct I as (a & <- & I). eauto.
Qed.
Lemma still_bind : forall A C (m : B A) (f : A -> B C), still m -> (forall a, still (f a)) -> still (bind m f).
Proof. intros A C m f H K n c n' E. unfold bind in E. destruct (m n) as [[a n1]| |] eqn:Em; try discriminate E. cbn in E. rewrite (K _ _ _ _ E). eapply H, Em. Qed.
Lemma still_pattern : forall k g, still (pattern_of compile k g).
Proof. intros k g. unfold pattern_of, ret, fail. still_word. Qed.
Ltac still := first [apply still_ret|apply still_fail|apply still_panic|apply still_extra|apply still_revalidate|apply still_bytes|apply still_mode|apply still_unpacked|apply still_keys|apply still_default|apply still_pattern
  |apply still_bind; [still|intros ?; still]|match goal with |- still (match ?x with _ => _ end) => destruct x; still end].
Ltac vis := first [apply visits_build|apply visits_opt|apply visits_extras|apply visits_params|apply visits_still; still|apply visits_if; vis|apply visits_panic_if; vis
  |refine (visits_members _ _ fst _ _ _ _); intros ? ?; apply visits_still; still
  |refine (visits_members _ _ snd _ _ _ _); intros ? ?; apply visits_still; still
  |apply visits_bind; [vis|intros ?; vis]].
Ltac see := let I := fresh in intros ? I; rewrite ?map_app, ?in_app_iff in I; cbn [In] in I; intuition (subst; auto).
Lemma visits_each : forall g l, visits (mapB (build g) l) (fun p => In p (map (pair g) l)).
Proof.
  intros g l. eapply visits_weak; [apply visits_map with (v := fun a p => p = (g, a)); intros a _; apply visits_build|]. intros p I. apply in_map_iff in I. destruct I as (a & <- & I). eauto.
Qed.
Lemma visits_define : forall k s, visits (define k s) (fun _ => False).
Proof. intros k s n a n' E. unfold define in E. destruct (find_def k (kn_defs n)); [discriminate E|]. injection E as _ <-. split; [apply incl_appl, incl_refl|contradiction]. Qed.
Lemma parts_built : forall g c, visits (build g c) (fun p => In p (parts g c)).
Proof.
  intros g c. destruct c; cbn [Core.build parts].
  all: try (eapply visits_weak; [vis|see]).
  - eapply visits_weak; [apply visits_bind; [apply visits_each|intros r; vis]|]. see.
  - eapply visits_weak; [apply visits_bind; [apply visits_each|]|]; [|intros p I; left; exact I]. intros r. apply visits_still. destruct (flat_map steps_of r) as [|? [|]]; still.
  - destruct t; [|intros n a n' E; discriminate E]. eapply visits_weak; [vis|see].
  - eapply visits_weak; [apply visits_still_bind; [still|]; intros e; apply visits_bind; [apply visits_extras|]; intros ex; apply visits_bind; [|intros fs; vis]|].
    + refine (visits_members _ _ snd _ _ _ _). intros a s. cbv zeta. apply visits_if, visits_if. apply visits_still. still.
    + see.
  - eapply visits_weak; [apply visits_bind; [refine (visits_members _ _ snd _ _ _ _); intros a s; apply visits_define|intros ?; apply visits_build]|]. see.
  - intros n a n' [= _ <-]. split; [apply incl_refl|]. intros p [].
Qed.
Lemma inside_built : forall g c g' x, within g c g' x -> forall n s n', build g c n = Built (s, n') -> exists n1 s1 n2, build g' x n1 = Built (s1, n2) /\ incl (kn_defs n2) (kn_defs n').
Proof.
  intros g c g' x W. induction W as [g c|g c p g' x I W IH]; intros n s n' E; [exists n, s, n'; split; [exact E|apply incl_refl]|].
  destruct (parts_built g c _ _ _ E) as [_ V]. destruct (V p I) as (n1 & s1 & n2 & E1 & X). destruct (IH _ _ _ E1) as (n3 & s3 & n4 & E3 & X3).
  exists n3, s3, n4. split; [exact E3|eapply incl_tran; eassumption].
Qed.
Lemma definition_kept : forall g l n r n', mapB (fun p => bind (build g (snd p)) (define (fst p))) l n = Built (r, n') -> forall k x, In (k, x) l ->
  exists n1 s n2, build g x n1 = Built (s, n2) /\ In (k, s) (kn_defs n').
Proof.
  intros g l. induction l as [|[j y] l IH]; intros n r n' E k x I; [destruct I|]. cbn [mapB fst snd] in E. unfold bind at 1 in E.
  destruct (bind (build g y) (define j) n) as [[u n1]| |] eqn:E1; try discriminate E. cbn in E. unfold bind in E. destruct (mapB _ l n1) as [[r2 n2]| |] eqn:E2; try discriminate E. cbn in E. injection E as _ <-.
  destruct I as [[= <- <-]|I].
  - unfold bind in E1. destruct (build g y n) as [[s n3]| |] eqn:E3; try discriminate E1. cbn in E1. exists n, s, n3. split; [exact E3|].
    assert (M : visits (mapB (fun p : nat * core => bind (build g (snd p)) (define (fst p))) l) (fun _ => False)).
    { eapply visits_weak; [refine (visits_members _ _ snd _ _ _ _); intros a t; apply visits_define|]. contradiction. }
    destruct (M _ _ _ E2) as [X _]. apply X. unfold define in E1. destruct (find_def j (kn_defs n3)); [discriminate E1|]. injection E1 as _ <-. apply in_or_app. right. now left.
  - eapply IH; eassumption.
Qed.

(** ** Building does not depend on what was built before *)
Definition same {A} (m : B A) : Prop := forall n1 n2 a1 a2 n1' n2', m n1 = Built (a1, n1') -> m n2 = Built (a2, n2') -> a1 = a2.
Lemma same_bind : forall A C (m : B A) (f : A -> B C), same m -> (forall a, same (f a)) -> same (bind m f).
Proof.
  intros A C m f H K n1 n2 a1 a2 n1' n2' E1 E2. unfold bind in *. destruct (m n1) as [[b1 k1]| |] eqn:F1; try discriminate E1. destruct (m n2) as [[b2 k2]| |] eqn:F2; try discriminate E2.
  rewrite (H _ _ _ _ _ _ F1 F2) in E1. cbn in *. eapply K; eassumption.
Qed.
Lemma same_map : forall A C (f : A -> B C) l, Forall (fun a => same (f a)) l -> same (mapB f l).
Proof.
  intros A C f l F. induction F as [|a l E F IH]; cbn [mapB]; [intros n1 n2 a1 a2 n1' n2' [= <- _] [= <- _]; reflexivity|].
  apply same_bind; [exact E|]. intros c. apply same_bind; [exact IH|]. intros r n1 n2 a1 a2 n1' n2' [= <- _] [= <- _]; reflexivity.
Qed.
Lemma same_ret : forall A (a : A), same (ret a). Proof. intros A a n1 n2 a1 a2 n1' n2' [= <- _] [= <- _]. reflexivity. Qed.
Lemma same_fail : forall A, same (@fail A). Proof. intros A n1 n2 a1 a2 n1' n2' E. discriminate E. Qed.
Lemma same_panic : forall A, same (@panic A). Proof. intros A n1 n2 a1 a2 n1' n2' E. discriminate E. Qed.
Ltac same_now := first [apply same_ret|apply same_fail|apply same_panic|apply same_bind; [same_now|intros ?; same_now]|match goal with |- same (match ?x with _ => _ end) => destruct x; same_now end].
Lemma same_extra : forall o g d, same (extra_of o g d). Proof. intros o g d. unfold extra_of. same_now. Qed.
Lemma same_revalidate : forall o g, same (revalidate_of o g). Proof. intros o g. unfold revalidate_of. same_now. Qed.
Lemma same_bytes : forall g, same (bytes_of g). Proof. intros g. unfold bytes_of. same_now. Qed.
Lemma same_mode : forall w, same (mode_of w). Proof. intros w. unfold mode_of. same_now. Qed.
Lemma same_unpacked : forall w, same (unpacked_of w). Proof. intros w. unfold unpacked_of. same_now. Qed.
Lemma same_keys : forall a n, same (keys_of a n). Proof. intros a n. unfold keys_of. same_now. Qed.
Lemma same_default : forall k, same (default_of k). Proof. intros k. unfold default_of. same_now. Qed.
Lemma same_pattern : forall k g, same (pattern_of compile k g). Proof. intros k g. unfold pattern_of. same_now. Qed.
Lemma same_opt : forall g o, all_opt (fun a => forall g, same (build g a)) o -> same (optB (build g) o).
Proof. intros g [c|] H; [|apply same_ret]. apply same_bind; [apply H|]. intros s. apply same_ret. Qed.
Lemma same_extras : forall g e o, all_opt (fun a => forall g, same (build g a)) o -> same (extras_B (build g) e o).
Proof. intros g e [c|] H; [|apply same_ret]. destruct e; [|apply same_fail|apply same_fail]. apply same_bind; [apply H|]. intros s. apply same_ret. Qed.
Lemma same_params : forall g l, Forall (fun p => forall g, same (build g (snd p))) l -> forall d kw, same (params_B (build g) d kw l).
Proof.
  intros g l F. induction F as [|p l E F IH]; intros d kw; cbn [params_B]; [apply same_ret|]. apply same_bind; [apply E|]. intros s.
  destruct (omits s); [apply same_fail|]. destruct (_ && _); [apply same_fail|]. apply same_bind; [apply same_keys|]. intros ks. apply same_bind; [apply IH|]. intros r. apply same_ret.
Qed.
Ltac all_same := first
  [apply same_ret|apply same_fail|apply same_panic|apply same_extra|apply same_revalidate|apply same_bytes|apply same_mode|apply same_unpacked|apply same_keys|apply same_default|apply same_pattern
  |apply same_opt; assumption|apply same_extras; assumption|apply same_params; assumption|match goal with H : forall g, same _ |- _ => apply H end
  |apply same_bind; [all_same|intros ?; all_same]
  |match goal with H : Forall _ _ |- same (mapB _ _) => apply same_map; eapply Forall_impl; [|exact H]; intros ? ?; all_same end
  |match goal with |- same (match ?x with _ => _ end) => destruct x; all_same end
  |idtac].
Lemma build_same : forall c g, same (build g c).
Proof.
  apply (core_induction (fun c => forall g, same (build g c))); intros; cbn [Core.build]; all_same.
  all: try match goal with H : _ |- same (Core.build _ _ _ _) => apply H end.
  - cbv zeta. all_same.
  - intros n1 n2 a1 a2 n1' n2' E1 E2. now destruct a1, a2.
  - intros n1 n2 a1 a2 n1' n2' E1 E2. now destruct a1, a2.
Qed.
End Build.
