(** Proofs about the texts of URLs. *)
From Coq Require Import List NArith Bool Lia.
From Verif Require Import Base Utf8 Values VState Child Inputs Scalars Url UrlSpec UrlProofs UrlProofs2.
From Coq Require Import PeanoNat.
Import ListNotations.
Open Scope N_scope.

Lemma url_str_host : forall u, u_host u <> None -> url_str u = u_scheme u ++ lit "://" ++ authority u ++ tail_text u.
Proof. intros u H. unfold url_str. destruct (u_host u); [|contradiction H; reflexivity]. rewrite <- !app_assoc. reflexivity. Qed.

Lemma firstn_exact : forall {A} (a b : list A) n, n = length a -> firstn n (a ++ b) = a.
Proof. intros A a b n ->. rewrite firstn_app, Nat.sub_diag, firstn_all. cbn. apply app_nil_r. Qed.
Lemma skipn_exact : forall {A} (a b : list A) n, n = length a -> skipn n (a ++ b) = b.
Proof. intros A a b n ->. rewrite skipn_app, Nat.sub_diag, skipn_all. reflexivity. Qed.

Lemma insert_scheme : forall s x r, insert_at (length s + 3) x (s ++ lit "://" ++ r) = s ++ lit "://" ++ x ++ r.
Proof.
  intros s x r. unfold insert_at. rewrite (app_assoc s (lit "://") r).
  rewrite (firstn_exact (s ++ lit "://") r) by (rewrite app_length; reflexivity).
  rewrite (skipn_exact (s ++ lit "://") r) by (rewrite app_length; reflexivity). rewrite <- app_assoc. reflexivity.
Qed.
Lemma slice_scheme : forall s a r, slice_to (length s + 3) (length r) (s ++ lit "://" ++ a ++ r) = a.
Proof.
  intros s a r. unfold slice_to. rewrite !app_assoc, (firstn_exact _ r).
  - rewrite (skipn_exact (s ++ lit "://") a) by (rewrite app_length; reflexivity). reflexivity.
  - rewrite !app_length. cbn [length lit]. lia.
Qed.
Lemma join_comma_snoc : forall l x, l <> [] -> join_comma (l ++ [x]) = join_comma l ++ 44 :: x.
Proof.
  induction l as [|y l IH]; intros x H; [contradiction H; reflexivity|]. destruct l as [|z l]; [reflexivity|].
  change (y ++ 44 :: join_comma ((z :: l) ++ [x]) = (y ++ 44 :: join_comma (z :: l)) ++ 44 :: x).
  rewrite IH by discriminate. rewrite <- app_assoc. reflexivity.
Qed.
Lemma join_comma_concat : forall l x, join_comma (l ++ [x]) = concat (map (fun h => h ++ [44]) l) ++ x.
Proof.
  induction l as [|y l IH]; intros x; [reflexivity|]. cbn [map concat app]. rewrite <- !app_assoc, <- IH. cbn [app].
  destruct (l ++ [x]) eqn:E; [destruct l; discriminate|]. reflexivity.
Qed.

Lemma multi_text_spec : forall text host m,
  match mh_extra m with
  | Some l => l <> [] /\ Forall (fun e => text e = u_scheme (mh_ref m) ++ lit "://" ++ host e ++ root (mh_ref m)) l
  | None => True end ->
  text (mh_ref m) = single_text host (mh_ref m) -> (mh_extra m <> None -> u_host (mh_ref m) <> None) ->
  multi_text text m = hosts_text host m.
Proof.
  intros text host [ref [l|]] H E Hh; unfold multi_text, hosts_text; cbn [mh_extra mh_ref] in *; [|exact E].
  destruct H as [Hn H]. specialize (Hh ltac:(discriminate)). unfold single_text in E. destruct (u_host ref); [|contradiction Hh; reflexivity].
  rewrite E, insert_scheme, insert_scheme, map_app. cbn [map]. rewrite join_comma_snoc by (destruct l; [contradiction Hn; reflexivity|discriminate]).
  assert (K : map (fun u => slice_to (length (u_scheme ref) + 3) (if schema_is_special (u_scheme ref) then 1 else 0) (text u)) l = map host l).
  { apply map_ext_in. intros e He. rewrite Forall_forall in H. rewrite (H e He).
    replace (if schema_is_special (u_scheme ref) then 1%nat else 0%nat) with (length (root ref)) by (unfold root; destruct (schema_is_special _); reflexivity).
    apply slice_scheme. }
  rewrite K, <- !app_assoc. reflexivity.
Qed.

Lemma root_scheme : forall e u, u_scheme e = u_scheme u -> root e = root u.
Proof. intros e u H. unfold root. rewrite H. reflexivity. Qed.
Lemma bare_tail : forall e, bare e -> tail_text e = root e.
Proof. intros e (P & Q & F). unfold tail_text. rewrite P, Q, F. cbn [after app]. rewrite app_nil_r. reflexivity. Qed.

Lemma multi_str_spec : forall m, consistent m -> multi_str m = hosts_text authority m.
Proof.
  intros m C. apply multi_text_spec.
  - unfold consistent in C. destruct (mh_extra m) as [l|]; [|exact I]. destruct C as (Hn & F & _). split; [exact Hn|].
    revert F. apply Forall_impl. intros e (Hh & B & Es). rewrite (url_str_host e Hh), Es, (bare_tail e B), (root_scheme e _ Es). reflexivity.
  - unfold single_text. destruct (u_host (mh_ref m)) eqn:E; [|reflexivity]. apply url_str_host. rewrite E. discriminate.
  - unfold consistent in C. intros N. destruct (mh_extra m); [apply C|contradiction N; reflexivity].
Qed.

Section Unicode.
Variable decode : str -> option str.
Lemma unicode_single : forall u, (userinfo u = [] \/ is_punycode_domain u (match u_host u with Some h => h | None => [] end) = false) ->
  unicode_url decode u = single_text (unicode_authority decode) u.
Proof.
  intros u H. unfold unicode_url, single_text, unicode_authority, unicode_host. destruct (u_host u) as [h|] eqn:E; [|reflexivity].
  assert (S : url_str u = u_scheme u ++ lit "://" ++ authority u ++ tail_text u) by (apply url_str_host; rewrite E; discriminate).
  unfold authority in S. rewrite E in S.
  destruct (u_domain u && is_punycode_domain u h) eqn:P; [|rewrite S; reflexivity].
  apply andb_true_iff in P. destruct P as [_ P]. destruct H as [H|H]; [|congruence].
  destruct (decode_punycode decode h) as [d|] eqn:D; [|rewrite S; reflexivity].
  rewrite S, H. unfold replace_range. cbn [app].
  rewrite (app_assoc (u_scheme u)), firstn_exact by (rewrite app_length; reflexivity).
  assert (K : skipn (length (u_scheme u) + 3 + length h) ((u_scheme u ++ lit "://") ++ (h ++ after 58 (option_map port_text (u_port u))) ++ tail_text u)
     = after 58 (option_map port_text (u_port u)) ++ tail_text u).
  { rewrite <- (app_assoc h), (app_assoc (u_scheme u ++ _) h). apply skipn_exact. rewrite !app_length. cbn [length lit]. lia. }
  rewrite K, <- !app_assoc. reflexivity.
Qed.

Lemma multi_unicode_spec : forall m, consistent m ->
  Forall (fun u => userinfo u = [] \/ is_punycode_domain u (match u_host u with Some h => h | None => [] end) = false) (all_urls m) ->
  multi_unicode decode m = hosts_text (unicode_authority decode) m.
Proof.
  intros m C F. unfold all_urls in F. apply Forall_app in F. destruct F as [F1 F2]. inversion F2 as [|? ? F3 _]; subst. clear F2.
  apply multi_text_spec.
  - unfold consistent in C. destruct (mh_extra m) as [l|]; [|exact I]. destruct C as (Hn & F & _). split; [exact Hn|].
    rewrite Forall_forall in F, F1 |- *. intros e He. destruct (F e He) as (Hh & B & Es). rewrite (unicode_single e (F1 e He)).
    unfold single_text. destruct (u_host e); [|contradiction Hh; reflexivity]. rewrite Es, (bare_tail e B), (root_scheme e _ Es). reflexivity.
  - apply unicode_single. exact F3.
  - unfold consistent in C. intros N. destruct (mh_extra m); [apply C|contradiction N; reflexivity].
Qed.
End Unicode.

(** Taking a URL's own text apart. *)
Lemma clean_no_stops : forall special s, clean s -> ~ In 44 s -> Forall (fun c => c <> 44 /\ ~ stops special c) s.
Proof.
  intros special s H N. apply Forall_forall. intros c Hc. split; [intros ->; contradiction|].
  unfold clean in H. rewrite Forall_forall in H. specialize (H c Hc). cbn [In] in H. unfold stops. intros K. apply H.
  destruct K as [->|[->|[->|[_ ->]]]]; tauto.
Qed.
Lemma tail_starts : forall u special, well_formed u -> u_host u <> None -> match tail_text u with [] => True | c :: _ => stops special c end.
Proof.
  intros u special W H. pose proof (wf_path u W H) as P. unfold tail_text. destruct (u_path u) as [|c p]; cbn [app].
  - destruct (u_query u); cbn [after app]; [right; left; reflexivity|]. destruct (u_frag u); cbn [after app]; [right; right; left; reflexivity|exact I].
  - subst c. left. reflexivity.
Qed.
Lemma authority_nonempty : forall u, well_formed u -> u_host u <> None -> authority u <> [].
Proof.
  intros u W H E. pose proof (wf_host u W) as N. unfold authority in E. destruct (u_host u) as [h|]; [|contradiction H; reflexivity].
  apply app_eq_nil in E. destruct E as [_ E]. apply app_eq_nil in E. destruct E as [-> _]. contradiction N. reflexivity.
Qed.
Lemma not_slash : forall s r, s <> [] -> clean s -> match s ++ r with [] => True | c :: _ => ~ is_slash c end.
Proof.
  intros s r N H. destruct s as [|c s]; [contradiction N; reflexivity|]. cbn [app]. unfold clean in H. inversion H as [|? ? K _]; subst.
  cbn [In] in K. unfold is_slash. intros [-> | ->]; tauto.
Qed.
Lemma split_at_stop : forall special p r, ~ In 44 p -> match r with [] => True | c :: _ => stops special c end ->
  exists last rest, p ++ r = last ++ rest /\ Forall (fun c => c <> 44 /\ ~ stops special c) last /\ match rest with [] => True | c :: _ => stops special c end.
Proof.
  intros special p r. induction p as [|c p IH]; intros N Hr.
  - exists [], r. auto.
  - destruct (host_end special c) eqn:E.
    + apply host_end_spec in E. exists [], ((c :: p) ++ r). cbn [app]. auto.
    + destruct IH as (last & rest & Eq & F & G); [intros K; apply N; right; exact K|exact Hr|].
      exists (c :: last), rest. cbn [app]. rewrite Eq. split; [reflexivity|]. split; [|exact G]. constructor; [|exact F].
      split; [intros ->; apply N; left; reflexivity|]. rewrite <- host_end_spec, E. discriminate.
Qed.
Lemma slashes_of : forall p r, match r with [] => True | c :: _ => c = 63 \/ c = 35 end ->
  exists sl p', p ++ r = sl ++ p' ++ r /\ Forall is_slash sl /\ (forall c, In c p' -> In c p) /\ match p' ++ r with [] => True | c :: _ => ~ is_slash c end.
Proof.
  intros p r Hr. induction p as [|c p IH].
  - exists [], []. cbn [app]. split; [reflexivity|]. split; [constructor|]. split; [tauto|]. destruct r as [|c r]; [exact I|]. destruct Hr as [-> | ->]; intros [K|K]; discriminate.
  - destruct (N.eq_dec c 47) as [Ec|N1]; [|destruct (N.eq_dec c 92) as [Ec|N2]].
    1,2: destruct IH as (sl & p' & Eq & F & I' & G); exists (c :: sl), p'; cbn [app]; rewrite Eq; split; [reflexivity|]; split; [constructor; [unfold is_slash; auto|exact F]|]; split; [intros x Hx; right; auto|exact G].
    exists [], (c :: p). cbn [app]. split; [reflexivity|]. split; [constructor|]. split; [tauto|]. intros [K|K]; contradiction.
Qed.

Lemma own_host_list : forall u, well_formed u -> comma_free u ->
  exists prefix last rest, host_list (url_str u) prefix (u_scheme u) [] last rest.
Proof.
  intros u W C. destruct (wf_scheme u W) as (Sn & Sc & Sl). unfold comma_free in C. destruct (u_host u) as [h|] eqn:E.
  - assert (Hn : u_host u <> None) by (rewrite E; discriminate).
    exists (u_scheme u ++ lit "://"), (authority u), (tail_text u). constructor.
    + exists [], [47; 47]. split; [reflexivity|]. split; [constructor|]. constructor; [left; reflexivity|constructor; [left; reflexivity|constructor]].
    + auto.
    + cbn [map concat app]. rewrite (url_str_host u Hn), <- app_assoc. reflexivity.
    + constructor.
    + apply clean_no_stops; [apply (wf_authority u W)|exact C].
    + apply tail_starts; assumption.
    + cbn [map concat app]. apply not_slash; [apply authority_nonempty; assumption|apply (wf_authority u W)].
  - set (mid := if u_slashes u then [47; 47] else match u_path u with 47 :: 47 :: _ => [47; 46] | _ => [] end).
    set (r := after 63 (u_query u) ++ after 35 (u_frag u)).
    assert (Et : url_str u = u_scheme u ++ [58] ++ (mid ++ u_path u) ++ r).
    { unfold url_str, tail_text. rewrite E. fold mid. fold r. rewrite <- !app_assoc. reflexivity. }
    assert (Hr : match r with [] => True | c :: _ => c = 63 \/ c = 35 end).
    { unfold r. destruct (u_query u); cbn [after app]; [left; reflexivity|]. destruct (u_frag u); cbn [after]; [right; reflexivity|exact I]. }
    destruct (slashes_of (mid ++ u_path u) r Hr) as (sl & p' & Eq & Fsl & Hin & Hf).
    assert (Np : ~ In 44 p').
    { intros K. apply Hin in K. apply in_app_or in K. destruct K as [K|K]; [|contradiction]. unfold mid in K.
      destruct (u_slashes u); [cbn in K; destruct K as [K|[K|[]]]; discriminate|].
      assert (D : (match u_path u with 47 :: 47 :: _ => [47; 46] | _ => [] end) = [47; 46] \/ (match u_path u with 47 :: 47 :: _ => [47; 46] | _ => [] end) = []).
      { clear. destruct (u_path u) as [|a [|b l]]; auto.
        - right. destruct a as [|a]; auto. repeat (destruct a as [a|a|]; auto).
        - destruct a as [|a]; auto. repeat (destruct a as [a|a|]; auto). destruct b as [|b]; auto. repeat (destruct b as [b|b|]; auto). }
      destruct D as [D|D]; rewrite D in K; cbn in K; [destruct K as [K|[K|[]]]; discriminate|contradiction]. }
    destruct (split_at_stop (schema_is_special (lower (u_scheme u))) p' r Np) as (last & rest & E2 & F2 & G2).
    { destruct r as [|c r']; [exact I|]. destruct Hr as [-> | ->]; unfold stops; auto. }
    exists (u_scheme u ++ [58] ++ sl), last, rest. constructor.
    + exists [], sl. split; [reflexivity|]. split; [constructor|exact Fsl].
    + auto.
    + cbn [map concat app]. rewrite Et, Eq, E2, <- !app_assoc. reflexivity.
    + constructor.
    + exact F2.
    + exact G2.
    + cbn [map concat app]. rewrite <- E2. exact Hf.
Qed.

Section Library.
Variable lib_parse : str -> url + str.
Variable violation : str -> option str.
Hypothesis L : library_ok lib_parse.
Notation reads := (reads lib_parse violation).
Notation multi_reads := (multi_reads lib_parse violation).
Notation parse_multihost_url := (parse_multihost_url lib_parse violation).

Lemma url_str_nonempty : forall u, url_str u <> [].
Proof. intros u H. unfold url_str in H. destruct (u_scheme u); discriminate. Qed.

Lemma scheme_of_reads : forall strict prefix scheme space slashes r u, prefix = space ++ scheme ++ [58] ++ slashes ->
  Forall is_space space -> scheme <> [] -> Forall (fun c => scheme_char c = true) scheme ->
  reads strict (prefix ++ r) u -> u_scheme u = lower scheme.
Proof.
  intros strict prefix scheme space slashes r u -> Hsp Hn Hs (_ & P & _). rewrite <- !app_assoc in P. cbn [app] in P.
  eapply (lib_scheme lib_parse L); eassumption.
Qed.

Lemma reads_consistent : forall strict t m, multi_reads strict t m ->
  consistent m /\ Forall well_formed (all_urls m) /\ Forall (fun u => exists t, lib_parse t = inl u) (all_urls m).
Proof.
  intros strict t m H. destruct H as [t prefix scheme last rest u HL (_ & P & _)|t prefix scheme hs last rest u es HL Hne Hu Eu Hes].
  - split; [exact I|]. unfold all_urls. cbn [mh_extra mh_ref app]. split; (apply Forall_cons; [|apply Forall_nil]).
    + eapply (lib_shape lib_parse L); exact P.
    + eauto.
  - destruct HL as [(space & slashes & Hp & Hsp & Hsl) [Hn Hs] Ht Hh Hl Hr Hf].
    assert (Esc : u_scheme u = lower scheme) by (eapply scheme_of_reads; eassumption).
    assert (K : Forall (fun e => u_host e <> None /\ bare e /\ u_scheme e = u_scheme u /\ exists t, lib_parse t = inl e) es).
    { clear Hne Hf Ht Hl Hr. revert Hh. induction Hes as [|h e hs es [R Ne] _ IH]; intros Hh; [constructor|].
      inversion Hh as [|? ? [_ F] Hh']; subst. constructor; [|apply IH; exact Hh'].
      split; [exact Ne|]. split; [|split].
      - destruct R as (_ & P & _). rewrite <- !app_assoc in P. cbn [app] in P.
        eapply (lib_bare lib_parse L); [exact Hsp|exact Hn|exact Hs|exact Hsl| |exact P|exact Ne].
        revert F. apply Forall_impl. intros c [_ K]. exact K.
      - rewrite Esc. eapply scheme_of_reads; [reflexivity| | | |exact R]; assumption.
      - destruct R as (_ & P & _). eauto. }
    assert (Hpu : exists t, lib_parse t = inl u) by (destruct Hu as (_ & P & _); eauto).
    split; [|split].
    + unfold consistent. cbn [mh_extra mh_ref]. split; [|split; [|exact Eu]].
      * intros ->. inversion Hes. subst. contradiction Hne. reflexivity.
      * revert K. apply Forall_impl. intros e (A & B & C & _). auto.
    + unfold all_urls. cbn [mh_extra mh_ref]. apply Forall_app. split.
      * revert K. apply Forall_impl. intros e (_ & _ & _ & t' & P). eapply (lib_shape lib_parse L); exact P.
      * constructor; [|constructor]. destruct Hpu as [t' P]. eapply (lib_shape lib_parse L); exact P.
    + unfold all_urls. cbn [mh_extra mh_ref]. apply Forall_app. split.
      * revert K. apply Forall_impl. intros e (_ & _ & _ & X). exact X.
      * constructor; [exact Hpu|constructor].
Qed.

(** The text of a URL that was read is read as that URL. *)
Lemma text_reads_back : forall strict t m, multi_reads strict t m -> Forall comma_free (all_urls m) ->
  multi_reads false (multi_str m) m.
Proof.
  intros strict t m H C. destruct (reads_consistent strict t m H) as (Cm & W & P). rewrite (multi_str_spec m Cm).
  destruct m as [u [es|]]; unfold hosts_text, all_urls, consistent in *; cbn [mh_extra mh_ref app] in *.
  - destruct Cm as (Hne & Ce & Hu). apply Forall_app in C, W, P. destruct C as [C1 C2], W as [W1 W2], P as [P1 P2].
    inversion C2 as [|? ? Cu _]; subst. inversion W2 as [|? ? Wu _]; subst. inversion P2 as [|? ? (tu & Pu) _]; subst. clear C2 W2 P2.
    assert (NC : forall e, u_host e <> None -> comma_free e -> ~ In 44 (authority e)).
    { intros e He K. unfold comma_free in K. destruct (u_host e); [exact K|contradiction He; reflexivity]. }
    eapply (mr_many _ _ false _ (u_scheme u ++ lit "://") (u_scheme u) (map authority es) (authority u) (tail_text u)).
    + destruct (wf_scheme u Wu) as (Sn & Sc & Sl). constructor.
      * exists [], [47; 47]. split; [reflexivity|]. split; [constructor|]. constructor; [left; reflexivity|constructor; [left; reflexivity|constructor]].
      * auto.
      * rewrite map_app. cbn [map]. rewrite join_comma_concat, <- !app_assoc. reflexivity.
      * apply Forall_forall. intros h Hh. apply in_map_iff in Hh. destruct Hh as (e & <- & He).
        rewrite Forall_forall in Ce, C1, W1. destruct (Ce e He) as (A & _). split; [apply authority_nonempty; auto|].
        apply clean_no_stops; [apply (wf_authority e (W1 e He))|apply NC; auto].
      * apply clean_no_stops; [apply (wf_authority u Wu)|apply NC; auto].
      * apply tail_starts; assumption.
      * destruct es as [|e es]; [contradiction Hne; reflexivity|]. cbn [map concat]. rewrite <- !app_assoc.
        inversion Ce as [|? ? (A & _) _]; subst. inversion W1; subst. apply not_slash; [apply authority_nonempty; assumption|apply wf_authority; assumption].
    + destruct es; [contradiction Hne; reflexivity|discriminate].
    + rewrite <- app_assoc, <- (url_str_host u Hu). split; [apply url_str_nonempty|]. split; [eapply (lib_stable lib_parse L); exact Pu|discriminate].
    + exact Hu.
    + clear Hne C1 W1 H. revert P1. induction Ce as [|e es (A & B & Es) _ IH]; intros P1; cbn [map]; [constructor|].
      inversion P1 as [|? ? (te & Pe) P1']; subst. constructor; [|apply IH; exact P1']. split; [|exact A].
      split; [destruct (u_scheme u); discriminate|]. split; [|discriminate]. rewrite <- Es, <- app_assoc. eapply (lib_root lib_parse L); eassumption.
  - inversion C as [|? ? Cu _]; subst. inversion W as [|? ? Wu _]; subst. inversion P as [|? ? (tu & Pu) _]; subst.
    assert (E : single_text authority u = url_str u).
    { unfold single_text. destruct (u_host u) eqn:E; [|reflexivity]. symmetry. apply url_str_host. rewrite E. discriminate. }
    rewrite E. destruct (own_host_list u Wu Cu) as (prefix & last & rest & HL). eapply mr_one; [exact HL|].
    split; [apply url_str_nonempty|]. split; [eapply (lib_stable lib_parse L); exact Pu|discriminate].
Qed.
End Library.
