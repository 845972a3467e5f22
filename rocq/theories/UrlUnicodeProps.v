(** C72, the unicode forms: which hosts are decoded and how. *)
From Coq Require Import List NArith Bool Lia.
From Verif Require Import Base Utf8 Values VState Url UrlSpec.
Import ListNotations.
Open Scope N_scope.

(** ** Specification *)
(** The schemes for which a host is a domain name to the url crate. *)
Definition special_schemes : list str := [lit "http"; lit "https"; lit "ws"; lit "wss"; lit "ftp"; lit "file"].
(** A host from its labels. *)
Fixpoint join_dots (l : list str) : str :=
  match l with [] => [] | [a] => a | a :: r => a ++ lit "." ++ join_dots r end.
Definition labels (h : str) (l : list str) : Prop := l <> [] /\ Forall (fun a => ~ In 46 a) l /\ h = join_dots l.
Definition is_puny (a : str) : Prop := exists r, a = lit "xn--" ++ r.
(** A label and the text shown for it. *)
Inductive shows_label (decode : str -> option str) : str -> str -> Prop :=
| ShowsPuny r d : decode r = Some d -> shows_label decode (lit "xn--" ++ r) d
| ShowsPlain a : ~ is_puny a -> shows_label decode a a.
(** The host of a URL is subject to decoding. *)
Definition decodes (u : url) (l : list str) : Prop := u_domain u = true /\ In (u_scheme u) special_schemes /\ Exists is_puny l.

(** ** Proofs *)
Lemma special_iff s : schema_is_special s = true <-> In s special_schemes.
Proof.
  unfold schema_is_special, special_schemes. rewrite !orb_true_iff, !str_eqb_eq. cbn [In]. split; intros H; repeat destruct H as [H|H]; subst; tauto.
Qed.
Lemma split_one a : forall cur, ~ In 46 a -> split_dots cur a = [cur ++ a].
Proof.
  induction a as [|c a IH]; intros cur N; cbn [split_dots]; [now rewrite app_nil_r|].
  destruct (N.eqb_spec c 46) as [->|D]; [destruct N; now left|]. rewrite IH; [now rewrite <- app_assoc|]. intros I. apply N. now right.
Qed.
Lemma split_more a s : forall cur, ~ In 46 a -> split_dots cur (a ++ 46 :: s) = (cur ++ a) :: split_dots [] s.
Proof.
  induction a as [|c a IH]; intros cur N; cbn [app split_dots]; [now rewrite app_nil_r|].
  destruct (N.eqb_spec c 46) as [->|D]; [destruct N; now left|]. rewrite IH; [now rewrite <- app_assoc|]. intros I. apply N. now right.
Qed.
Lemma split_labels h l : labels h l -> split_dots [] h = l.
Proof.
  intros (N & F & ->). induction F as [|a l A F IH]; [easy|]. destruct l as [|b l]; [now apply split_one|].
  change (join_dots (a :: b :: l)) with (a ++ 46 :: join_dots (b :: l)). rewrite (split_more _ _ _ A). cbn [app]. f_equal. apply IH. discriminate.
Qed.
Lemma strip_iff a : match strip_puny a with Some r => a = lit "xn--" ++ r | None => ~ is_puny a end.
Proof.
  unfold strip_puny, puny_prefix. destruct (str_eqb (firstn 4 a) (lit "xn--")) eqn:E.
  - apply str_eqb_eq in E. rewrite <- (firstn_skipn 4 a) at 1. now rewrite E.
  - intros [r ->]. cbn in E. discriminate.
Qed.
Lemma puny_iff u h l : labels h l -> (is_punycode_domain u h = true <-> In (u_scheme u) special_schemes /\ Exists is_puny l).
Proof.
  intros L. unfold is_punycode_domain. rewrite (split_labels _ _ L), andb_true_iff, special_iff, existsb_exists, Exists_exists.
  assert (Q : forall c, match strip_puny c with Some _ => true | None => false end = true <-> is_puny c).
  { intros c. pose proof (strip_iff c) as S. destruct (strip_puny c) as [r|]; split; intros H; try easy. now exists r. }
  split; intros [A (c & I & P)]; (split; [exact A|]); exists c; (split; [exact I|]); now apply Q.
Qed.
Section Decode.
Variable decode : str -> option str.
Lemma decode_all l ds : Forall2 (shows_label decode) l ds -> decode_chunks decode l = Some (concat (map (fun d => d ++ lit ".") ds)).
Proof.
  induction 1 as [|a d l ds A F IH]; cbn [decode_chunks map concat]; [reflexivity|]. pose proof (strip_iff a) as S. rewrite IH.
  destruct A as [r d D|a P].
  - destruct (strip_puny _) as [r'|]; [|destruct S; now exists r]. apply app_inv_head in S. subst r'. rewrite D. now rewrite <- app_assoc.
  - destruct (strip_puny a) as [r|]; [destruct P; now exists r|]. now rewrite <- app_assoc.
Qed.
Lemma concat_dots ds : ds <> [] -> concat (map (fun d => d ++ lit ".") ds) = join_dots ds ++ lit ".".
Proof.
  induction ds as [|d ds IH]; [easy|]. intros _. destruct ds as [|e ds]; [cbn; now rewrite app_nil_r|]. 
  change (join_dots (d :: e :: ds)) with (d ++ lit "." ++ join_dots (e :: ds)). cbn [map concat] in *. rewrite IH by discriminate. now rewrite <- !app_assoc.
Qed.
Lemma decode_fails l r : In (lit "xn--" ++ r) l -> decode r = None -> decode_chunks decode l = None.
Proof.
  intros I D. induction l as [|a l IH]; [easy|]. cbn [decode_chunks]. destruct I as [->|I].
  - pose proof (strip_iff (lit "xn--" ++ r)) as S. destruct (strip_puny _) as [r'|]; [|destruct S; now exists r]. apply app_inv_head in S. subst r'. now rewrite D.
  - rewrite (IH I). destruct (strip_puny a) as [x|]; [now destruct (decode x)|reflexivity].
Qed.
End Decode.

(** C72: [unicode_host] of a domain with a punycode label has all of them decoded, or is
    absent if one of them is not punycode; every other host is shown as it is. *)
Theorem C72_unicode_host : forall decode u h l, u_host u = Some h -> labels h l ->
  (decodes u l -> forall ds, Forall2 (shows_label decode) l ds -> unicode_host decode u = Some (join_dots ds)) /\
  (decodes u l -> forall r, In (lit "xn--" ++ r) l -> decode r = None -> unicode_host decode u = None) /\
  (~ decodes u l -> unicode_host decode u = Some h).
Proof.
  intros decode u h l H L. unfold unicode_host. rewrite H. pose proof (puny_iff u h l L) as P.
  assert (Q : u_domain u && is_punycode_domain u h = true <-> decodes u l) by (rewrite andb_true_iff, P; unfold decodes; tauto).
  repeat split.
  - intros D ds F. apply Q in D. rewrite D. unfold decode_punycode. rewrite (split_labels _ _ L), (decode_all _ _ _ F), concat_dots; [change (lit ".") with [46%N]; now rewrite removelast_last|].
    intros ->. inversion F. subst. now destruct L.
  - intros D r I R. apply Q in D. rewrite D. unfold decode_punycode. now rewrite (split_labels _ _ L), (decode_fails _ _ _ I R).
  - intros D. destruct (u_domain u && is_punycode_domain u h); [|reflexivity]. now destruct D; apply Q.
Qed.
Print Assumptions C72_unicode_host.
(** Every host has labels. *)
Lemma labels_exist h : exists l, labels h l.
Proof.
  assert (G : forall s cur, ~ In 46 cur -> exists l, l <> [] /\ Forall (fun a => ~ In 46 a) l /\ cur ++ s = join_dots l).
  { induction s as [|c s IH]; intros cur N; [exists [cur]; cbn; rewrite app_nil_r; repeat split; [discriminate|now constructor]|].
    destruct (N.eq_dec c 46) as [->|D].
    - destruct (IH [] (fun F => F)) as (l & A & B & C). exists (cur :: l). repeat split; [discriminate|now constructor|]. cbn [app] in C. rewrite C. destruct l; [easy|reflexivity].
    - destruct (IH (cur ++ [c])) as (l & A & B & C); [intros I; apply in_app_or in I; destruct I as [I|[I|[]]]; [easy|now subst]|]. exists l. rewrite <- app_assoc in C. auto. }
  destruct (G h [] (fun F => F)) as (l & A & B & C). exists l. split; [exact A|split; [exact B|exact C]].
Qed.

(** C72: a URL none of whose hosts is decoded has the same two texts. *)
Theorem C72_unicode_plain : forall decode m,
  Forall (fun u => forall h l, u_host u = Some h -> labels h l -> ~ decodes u l) (all_urls m) ->
  multi_unicode decode m = multi_str m /\ Forall (fun u => unicode_url decode u = url_str u) (all_urls m).
Proof.
  intros decode m F.
  assert (G : forall u, (forall h l, u_host u = Some h -> labels h l -> ~ decodes u l) -> unicode_url decode u = url_str u).
  { intros u U. unfold unicode_url. destruct (u_host u) as [h|] eqn:H; [|reflexivity]. destruct (labels_exist h) as [l L].
    destruct (u_domain u && is_punycode_domain u h) eqn:P; [|reflexivity]. destruct (U h l eq_refl L).
    apply andb_true_iff in P. destruct P as [A B]. apply (puny_iff u h l L) in B. split; [exact A|exact B]. }
  assert (K : Forall (fun u => unicode_url decode u = url_str u) (all_urls m)) by (revert F; apply Forall_impl; auto).
  split; [|exact K]. unfold all_urls in K. apply Forall_app in K. destruct K as [K1 K2]. inversion K2 as [|? ? K3 _]. subst.
  unfold multi_unicode, multi_str, multi_text. destruct (mh_extra m) as [l|]; [|exact K3]. cbv zeta. rewrite K3. do 2 f_equal.
  clear -K1. induction K1 as [|u l U K IH]; [reflexivity|]. cbn [map]. now rewrite U, IH.
Qed.
Print Assumptions C72_unicode_plain.

(** Non-vacuity: a host with two labels, one of them in punycode. *)
Definition ex_decode (s : str) : option str := if str_eqb s (lit "ab") then Some (lit "AB") else None.
Definition ex_url (scheme host : str) : url :=
  {| u_scheme := scheme; u_user := []; u_pass := None; u_host := Some host; u_domain := true; u_slashes := true; u_port := None; u_path := lit "/"; u_query := None; u_frag := None |}.
Example C72_unicode_ex : labels (lit "www.xn--ab.org") [lit "www"; lit "xn--ab"; lit "org"] /\
  decodes (ex_url (lit "http") (lit "www.xn--ab.org")) [lit "www"; lit "xn--ab"; lit "org"] /\
  unicode_host ex_decode (ex_url (lit "http") (lit "www.xn--ab.org")) = Some (lit "www.AB.org") /\
  unicode_host ex_decode (ex_url (lit "http") (lit "www.xn--zz.org")) = None /\
  unicode_host ex_decode (ex_url (lit "foo") (lit "www.xn--ab.org")) = Some (lit "www.xn--ab.org").
Proof.
  repeat split; try reflexivity; try discriminate.
  - repeat constructor; cbn; intros H; repeat (destruct H as [H|H]; [discriminate H|]); exact H.
  - now left.
  - right. left. now exists (lit "ab").
Qed.
