(** Proofs about the splitting of multi-host URLs. *)
From Coq Require Import List NArith Bool Lia.
From Verif Require Import Base Utf8 Values VState Child Inputs Scalars Url UrlSpec UrlProofs.
Import ListNotations.
Open Scope N_scope.

Lemma skip_space_app : forall a r, Forall is_space a -> match r with [] => True | c :: _ => 32 < c end ->
  skip_space (a ++ r) = (a, r).
Proof.
  intros a r H. revert r. induction H as [|c a Hc Ha IH]; intros r Hr; cbn [app].
  - destruct r as [|c r]; [reflexivity|]. cbn [skip_space]. destruct (N.leb_spec c 32); [lia|reflexivity].
  - cbn [skip_space]. unfold is_space in Hc. destruct (N.leb_spec c 32); [|lia]. rewrite (IH r Hr). reflexivity.
Qed.
Lemma skip_space_inv : forall t a r, skip_space t = (a, r) ->
  t = a ++ r /\ Forall is_space a /\ match r with [] => True | c :: _ => 32 < c end.
Proof.
  induction t as [|c t IH]; intros a r H; cbn [skip_space] in H.
  - injection H as <- <-. auto.
  - destruct (N.leb_spec c 32) as [L|L].
    + destruct (skip_space t) as [a' r']. injection H as <- <-. destruct (IH a' r' eq_refl) as (-> & Ha & Hr). split; [reflexivity|]. split; [constructor; assumption|assumption].
    + injection H as <- <-. auto.
Qed.
Lemma scheme_char_bounds : forall c, scheme_char c = true -> 32 < c /\ c <> 58 /\ c <> 47 /\ c <> 92.
Proof.
  intros c H. unfold scheme_char in H. rewrite !orb_true_iff, !andb_true_iff, !N.leb_le, !N.eqb_eq in H. lia.
Qed.
Lemma take_scheme_app : forall s r, Forall (fun c => scheme_char c = true) s -> take_scheme (s ++ 58 :: r) = Some (s, r).
Proof.
  intros s r H. induction H as [|c s Hc Hs IH]; cbn [app take_scheme].
  - reflexivity.
  - rewrite Hc, IH. reflexivity.
Qed.
Lemma take_scheme_inv : forall t s r, take_scheme t = Some (s, r) -> t = s ++ 58 :: r /\ Forall (fun c => scheme_char c = true) s.
Proof.
  induction t as [|c t IH]; intros s r H; cbn [take_scheme] in H; [discriminate|].
  destruct (scheme_char c) eqn:E.
  - destruct (take_scheme t) as [[a b]|]; [|discriminate]. injection H as <- <-. destruct (IH a b eq_refl) as [-> F]. split; [reflexivity|constructor; assumption].
  - destruct (N.eqb_spec c 58) as [->|]; [|discriminate]. injection H as <- <-. auto.
Qed.
Lemma take_slashes_app : forall a r, Forall is_slash a -> match r with [] => True | c :: _ => ~ is_slash c end ->
  take_slashes (a ++ r) = (a, r).
Proof.
  intros a r H. revert r. induction H as [|c a Hc Ha IH]; intros r Hr; cbn [app].
  - destruct r as [|c r]; [reflexivity|]. cbn [take_slashes]. unfold is_slash in Hr.
    destruct (N.eqb_spec c 47); [tauto|]. destruct (N.eqb_spec c 92); [tauto|reflexivity].
  - cbn [take_slashes]. assert (E : (c =? 47) || (c =? 92) = true) by (destruct Hc as [-> | ->]; reflexivity). rewrite E, (IH r Hr). reflexivity.
Qed.
Lemma take_slashes_inv : forall t a r, take_slashes t = (a, r) ->
  t = a ++ r /\ Forall is_slash a /\ match r with [] => True | c :: _ => ~ is_slash c end.
Proof.
  induction t as [|c t IH]; intros a r H; cbn [take_slashes] in H.
  - injection H as <- <-. auto.
  - destruct ((c =? 47) || (c =? 92)) eqn:E.
    + destruct (take_slashes t) as [a' r']. injection H as <- <-. destruct (IH a' r' eq_refl) as (-> & Ha & Hr).
      split; [reflexivity|]. split; [|assumption]. constructor; [|assumption]. apply orb_true_iff in E. rewrite !N.eqb_eq in E. exact E.
    + injection H as <- <-. split; [reflexivity|]. split; [constructor|]. intros [-> | ->]; discriminate E.
Qed.
Lemma host_end_spec : forall special c, host_end special c = true <-> stops special c.
Proof.
  intros special c. unfold host_end, stops. rewrite !orb_true_iff, andb_true_iff, !N.eqb_eq. tauto.
Qed.
Lemma split_hosts_last : forall special cur last rest,
  Forall (fun c => c <> 44 /\ ~ stops special c) last -> match rest with [] => True | c :: _ => stops special c end ->
  split_hosts special cur (last ++ rest) = Some ([], cur ++ last ++ rest).
Proof.
  intros special cur last rest H. revert cur rest. induction H as [|c last [Hc Hs] Hl IH]; intros cur rest Hr; cbn [app].
  - destruct rest as [|c rest]; cbn [split_hosts]; [rewrite app_nil_r; reflexivity|]. apply host_end_spec in Hr. rewrite Hr. reflexivity.
  - cbn [split_hosts]. destruct (host_end special c) eqn:E; [apply host_end_spec in E; contradiction|].
    destruct (N.eqb_spec c 44); [contradiction|]. rewrite (IH (cur ++ [c]) rest Hr), <- app_assoc. reflexivity.
Qed.
Lemma split_hosts_one : forall special h cur r, Forall (fun c => c <> 44 /\ ~ stops special c) h -> cur ++ h <> [] ->
  split_hosts special cur (h ++ 44 :: r) = match split_hosts special [] r with Some (hs, t) => Some ((cur ++ h) :: hs, t) | None => None end.
Proof.
  intros special h cur r H. revert cur. induction H as [|c h [Hc Hs] Hh IH]; intros cur Hn; cbn [app].
  - cbn [split_hosts]. assert (E : host_end special 44 = false) by (unfold host_end; destruct special; reflexivity). rewrite E. cbn [N.eqb Pos.eqb].
    rewrite app_nil_r in *. destruct cur; [contradiction Hn; reflexivity|reflexivity].
  - cbn [split_hosts]. destruct (host_end special c) eqn:E; [apply host_end_spec in E; contradiction|].
    destruct (N.eqb_spec c 44); [contradiction|]. rewrite (IH (cur ++ [c])); rewrite <- ?app_assoc; [reflexivity|]. destruct cur; discriminate.
Qed.
Lemma split_hosts_all : forall special hs last rest,
  Forall (fun h => h <> [] /\ Forall (fun c => c <> 44 /\ ~ stops special c) h) hs ->
  Forall (fun c => c <> 44 /\ ~ stops special c) last -> match rest with [] => True | c :: _ => stops special c end ->
  split_hosts special [] (concat (map (fun h => h ++ [44]) hs) ++ last ++ rest) = Some (hs, last ++ rest).
Proof.
  intros special hs last rest H Hl Hr. induction H as [|h hs [Hn Hh] H IH]; cbn [map concat app].
  - apply (split_hosts_last special [] last rest Hl Hr).
  - rewrite <- !app_assoc. cbn [app]. rewrite (split_hosts_one special h []) by assumption. rewrite IH. reflexivity.
Qed.
Lemma split_hosts_inv : forall special s cur hs t, split_hosts special cur s = Some (hs, t) ->
  Forall (fun c => c <> 44 /\ ~ stops special c) cur ->
  exists last rest, t = last ++ rest /\ cur ++ s = concat (map (fun h => h ++ [44]) hs) ++ last ++ rest
  /\ Forall (fun h => h <> [] /\ Forall (fun c => c <> 44 /\ ~ stops special c) h) hs
  /\ Forall (fun c => c <> 44 /\ ~ stops special c) last /\ match rest with [] => True | c :: _ => stops special c end.
Proof.
  induction s as [|c s IH]; intros cur hs t H Hc; cbn [split_hosts] in H.
  - injection H as <- <-. exists cur, []. rewrite !app_nil_r. cbn. auto.
  - destruct (host_end special c) eqn:E.
    + injection H as <- <-. exists cur, (c :: s). cbn [map concat app]. apply host_end_spec in E. auto.
    + assert (Ns : ~ stops special c) by (rewrite <- host_end_spec, E; discriminate).
      destruct (N.eqb_spec c 44) as [->|Nc].
      * assert (Hne : cur <> []) by (intros ->; discriminate H).
        assert (H' : match split_hosts special [] s with Some (hs, t) => Some (cur :: hs, t) | None => None end = Some (hs, t))
          by (destruct cur; [contradiction Hne; reflexivity|exact H]). clear H. rename H' into H.
        destruct (split_hosts special [] s) as [[hs' t']|] eqn:Es; [|discriminate]. injection H as <- <-.
        destruct (IH [] hs' t' Es (Forall_nil _)) as (last & rest & -> & Eq & F & G & K). cbn [app] in Eq.
        exists last, rest. split; [reflexivity|]. split; [cbn [map concat]; rewrite <- !app_assoc; cbn [app]; rewrite Eq; reflexivity|].
        split; [|auto]. constructor; [split; [exact Hne|exact Hc]|exact F].
      * destruct (IH (cur ++ [c]) hs t H) as (last & rest & -> & Eq & F & G & K).
        { apply Forall_app. split; [exact Hc|]. constructor; [auto|constructor]. }
        rewrite <- app_assoc in Eq. exists last, rest. auto.
Qed.

Section Url.
Variable lib_parse : str -> url + str.
Variable violation : str -> option str.
Notation parse_url := (parse_url lib_parse violation).
Notation parse_multihost_url := (parse_multihost_url lib_parse violation).
Notation reads := (reads lib_parse violation).
Notation multi_reads := (multi_reads lib_parse violation).

Lemma parse_url_reads : forall strict t u, parse_url strict t = UOk u <-> reads strict t u.
Proof.
  intros strict t u. unfold Url.parse_url, UrlSpec.reads. destruct t as [|c t].
  - split; [discriminate|]. intros [N _]. contradiction.
  - destruct (lib_parse (c :: t)) as [v|e].
    + destruct strict.
      * destruct (violation (c :: t)); split; intros H; try discriminate.
        -- destruct H as (_ & _ & H). specialize (H eq_refl). discriminate.
        -- injection H as ->. repeat split; [discriminate].
        -- destruct H as (_ & H & _). injection H as ->. reflexivity.
      * split; intros H; [injection H as ->; repeat split; discriminate|]. destruct H as (_ & H & _). injection H as ->. reflexivity.
    + split; [discriminate|]. intros (_ & H & _). discriminate.
Qed.

Lemma parse_all_reads : forall strict l us, parse_all lib_parse violation strict l = UOk us <-> Forall2 (reads strict) l us.
Proof.
  intros strict l. induction l as [|t l IH]; intros us; cbn [parse_all].
  - split; [injection 1 as <-; constructor|]. intros H. inversion H. reflexivity.
  - split; intros H.
    + apply ubind_ok in H. destruct H as (u & Hu & H). apply ubind_ok in H. destruct H as (us' & Hs & H). injection H as <-.
      constructor; [apply parse_url_reads; exact Hu|apply IH; exact Hs].
    + inversion H as [|? u ? us' Hu Hs]; subst. apply parse_url_reads in Hu. apply IH in Hs. rewrite Hu. cbn [ubind]. rewrite Hs. reflexivity.
Qed.

(** The steps of the parser on a text with given parts. *)
Lemma parts_run : forall t prefix scheme hs last rest, host_list t prefix scheme hs last rest ->
  exists space slashes s, skip_space t = (space, scheme ++ 58 :: slashes ++ s) /\ take_scheme (scheme ++ 58 :: slashes ++ s) = Some (scheme, slashes ++ s)
  /\ take_slashes (slashes ++ s) = (slashes, s) /\ prefix = space ++ scheme ++ [58] ++ slashes /\ scheme <> [] /\ t <> []
  /\ split_hosts (schema_is_special (map ascii_lower scheme)) [] s = Some (hs, last ++ rest).
Proof.
  intros t prefix scheme hs last rest [(space & slashes & Hp & Hsp & Hsl) [Hn Hs] Ht Hh Hl Hr Hf].
  exists space, slashes, (concat (map (fun h => h ++ [44]) hs) ++ last ++ rest).
  assert (E : t = space ++ scheme ++ 58 :: slashes ++ concat (map (fun h => h ++ [44]) hs) ++ last ++ rest)
    by (rewrite Ht, Hp, <- !app_assoc; reflexivity).
  split; [|split; [|split; [|split; [|split; [|split]]]]].
  - rewrite E. apply skip_space_app; [exact Hsp|]. destruct scheme as [|c scheme]; [contradiction Hn; reflexivity|]. inversion Hs; subst. cbn [app].
    apply scheme_char_bounds; assumption.
  - apply take_scheme_app. exact Hs.
  - apply take_slashes_app; assumption.
  - exact Hp.
  - exact Hn.
  - rewrite E. destruct space; [|discriminate]. destruct scheme; [contradiction Hn; reflexivity|discriminate].
  - apply split_hosts_all; assumption.
Qed.

Lemma existsb_hosts : forall (es : list url), existsb (fun u => negb (has_host u)) es = false <-> Forall (fun u => u_host u <> None) es.
Proof.
  induction es as [|e es IH]; cbn [existsb]; [split; [constructor|reflexivity]|].
  rewrite orb_false_iff, IH. unfold has_host. split.
  - intros [H F]. constructor; [|exact F]. destruct (u_host e); [discriminate|discriminate H].
  - intros H. inversion H; subst. split; [|assumption]. destruct (u_host e); [reflexivity|contradiction].
Qed.
Lemma has_host_true : forall u, has_host u = true <-> u_host u <> None.
Proof. intros u. unfold has_host. destruct (u_host u); split; congruence. Qed.

Lemma multi_iff : forall strict t m, parse_multihost_url strict t = UOk m <-> multi_reads strict t m.
Proof.
  intros strict t m. split; intros H.
  - assert (Ht : t <> []) by (intros ->; discriminate H).
    assert (H' : (let '(space, s) := skip_space t in
      match take_scheme s with
      | None | Some ([], _) => UErr (UrlParsing no_base)
      | Some (scheme, s) =>
          let '(slashes, s) := take_slashes s in
          let prefix := space ++ scheme ++ [58] ++ slashes in
          match split_hosts (schema_is_special (map ascii_lower scheme)) [] s with
          | None => UErr (UrlParsing empty_host)
          | Some (hs, last) =>
              ubind (parse_url strict (prefix ++ last)) (fun ref =>
              match hs with
              | [] => UOk (mk_multi ref None)
              | _ =>
                  if negb (has_host ref) then UErr (UrlParsing empty_host)
                  else ubind (parse_all lib_parse violation strict (map (fun h => prefix ++ h) hs)) (fun extra =>
                       if existsb (fun u => negb (has_host u)) extra then UErr (UrlParsing empty_host)
                       else UOk (mk_multi ref (Some extra)))
              end)
          end
      end) = UOk m) by (destruct t; [contradiction Ht; reflexivity|exact H]).
    clear H. rename H' into H.
    destruct (skip_space t) as [space s] eqn:Esk. apply skip_space_inv in Esk. destruct Esk as (Et & Hsp & Hfirst).
    destruct (take_scheme s) as [[scheme s1]|] eqn:Esc; [|discriminate]. apply take_scheme_inv in Esc. destruct Esc as [-> Hsc].
    assert (Hn : scheme <> []) by (intros ->; discriminate H).
    destruct (take_slashes s1) as [slashes s2] eqn:Esl. apply take_slashes_inv in Esl. destruct Esl as (-> & Hsl & Hf).
    destruct (split_hosts (schema_is_special (map ascii_lower scheme)) [] s2) as [[hs tl]|] eqn:Eh; [|destruct scheme; discriminate].
    apply split_hosts_inv in Eh; [|constructor]. destruct Eh as (last & rest & -> & Eq & Hhs & Hl & Hr). cbn [app] in Eq.
    set (prefix := space ++ scheme ++ [58] ++ slashes) in *.
    assert (HL : host_list t prefix scheme hs last rest).
    { constructor; try assumption; [exists space, slashes; auto|auto| |rewrite <- Eq; exact Hf]. rewrite Et, Eq. unfold prefix. rewrite <- !app_assoc. reflexivity. }
    assert (H' : ubind (parse_url strict (prefix ++ last ++ rest)) (fun ref =>
              match hs with
              | [] => UOk (mk_multi ref None)
              | _ =>
                  if negb (has_host ref) then UErr (UrlParsing empty_host)
                  else ubind (parse_all lib_parse violation strict (map (fun h => prefix ++ h) hs)) (fun extra =>
                       if existsb (fun u => negb (has_host u)) extra then UErr (UrlParsing empty_host)
                       else UOk (mk_multi ref (Some extra)))
              end) = UOk m) by (destruct scheme; [contradiction Hn; reflexivity|exact H]).
    clear H. rename H' into H.
    apply ubind_ok in H. destruct H as (u & Hu & H). apply parse_url_reads in Hu.
    destruct hs as [|h hs].
    + injection H as <-. eapply mr_one; [exact HL|]. destruct HL as [_ _ E _ _ _ _]. rewrite E. exact Hu.
    + destruct (has_host u) eqn:Eu; [|discriminate]. cbn [negb] in H. apply has_host_true in Eu.
      apply ubind_ok in H. destruct H as (es & Hes & H). apply parse_all_reads in Hes.
      destruct (existsb _ es) eqn:Ex; [discriminate|]. apply existsb_hosts in Ex. injection H as <-.
      eapply mr_many; [exact HL|discriminate|exact Hu|exact Eu|].
      clear -Hes Ex. revert Hes Ex. generalize (h :: hs). intros l. revert es. induction l as [|x l IH]; intros es Hes Ex; cbn [map] in Hes;
        inversion Hes; subst; inversion Ex; subst; constructor; auto.
  - destruct H as [t prefix scheme last rest u HL Hu|t prefix scheme hs last rest u es HL Hne Hu Eu Hes];
      destruct (parts_run _ _ _ _ _ _ HL) as (space & slashes & s & E1 & E2 & E3 & E4 & Hn & Ht & E5);
      unfold Url.parse_multihost_url; (destruct t as [|c0 t0] eqn:Et; [contradiction Ht; reflexivity|]); rewrite <- Et in *; clear Et c0 t0;
      rewrite E1, E2; (destruct scheme as [|c scheme]; [contradiction Hn; reflexivity|]); rewrite E3, E5; rewrite <- E4.
    + apply parse_url_reads in Hu. destruct HL as [_ _ E _ _ _ _]. cbn [map concat app] in E. rewrite <- E, Hu. reflexivity.
    + apply parse_url_reads in Hu. rewrite Hu. cbn [ubind]. apply has_host_true in Eu. rewrite Eu. cbn [negb].
      assert (A : Forall2 (reads strict) (map (fun h => prefix ++ h) hs) es).
      { clear -Hes. induction Hes as [|h e hs es [H _] _ IH]; constructor; assumption. }
      apply parse_all_reads in A. rewrite A. cbn [ubind].
      assert (B : existsb (fun u => negb (has_host u)) es = false).
      { apply existsb_hosts. clear -Hes. induction Hes as [|h e hs es [_ H] _ IH]; constructor; assumption. }
      rewrite B. destruct hs; [contradiction Hne; reflexivity|reflexivity].
Qed.

(** A text that cannot be taken apart. *)
Lemma multi_unparted : forall strict t, (forall prefix scheme hs last rest, ~ host_list t prefix scheme hs last rest) ->
  exists e, In e [empty_input; no_base; empty_host] /\ parse_multihost_url strict t = UErr (UrlParsing e).
Proof.
  intros strict t H. unfold Url.parse_multihost_url. destruct t as [|c0 t0] eqn:Et; [exists empty_input; split; [left; reflexivity|reflexivity]|].
  rewrite <- Et in *. clear Et c0 t0.
  destruct (skip_space t) as [space s] eqn:Esk. apply skip_space_inv in Esk. destruct Esk as (Et & Hsp & Hfirst).
  destruct (take_scheme s) as [[scheme s1]|] eqn:Esc; [|exists no_base; split; [right; left; reflexivity|reflexivity]].
  apply take_scheme_inv in Esc. destruct Esc as [-> Hsc].
  destruct scheme as [|c scheme]; [exists no_base; split; [right; left; reflexivity|reflexivity]|].
  destruct (take_slashes s1) as [slashes s2] eqn:Esl. apply take_slashes_inv in Esl. destruct Esl as (-> & Hsl & Hf).
  destruct (split_hosts _ [] s2) as [[hs tl]|] eqn:Eh; [|exists empty_host; split; [right; right; left; reflexivity|reflexivity]].
  apply split_hosts_inv in Eh; [|constructor]. destruct Eh as (last & rest & -> & Eq & Hhs & Hl & Hr). cbn [app] in Eq.
  exfalso. apply (H (space ++ (c :: scheme) ++ [58] ++ slashes) (c :: scheme) hs last rest).
  constructor; try assumption; [exists space, slashes; auto|split; [discriminate|exact Hsc]| |rewrite <- Eq; exact Hf].
  rewrite Et, Eq, <- !app_assoc. reflexivity.
Qed.
End Url.
