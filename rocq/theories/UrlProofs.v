(** Proofs about URL schemas. *)
From Coq Require Import List NArith Bool Lia.
From Verif Require Import Base Utf8 Values VState Child Inputs Scalars Url UrlSpec.
Import ListNotations.
Open Scope N_scope.

Lemma ubind_ok : forall {A B} (r : ures A) (f : A -> ures B) b, ubind r f = UOk b -> exists a, r = UOk a /\ f a = UOk b.
Proof. intros A B [a|e] f b H; [eauto|discriminate]. Qed.

Definition first_err {A} (l : list uerr) (r : ures A) : ures A := match l with [] => r | e :: _ => UErr e end.
Lemma first_err_app : forall A l m (r : ures A), first_err (l ++ m) r = first_err l (first_err m r).
Proof. intros A [|e l] m r; reflexivity. Qed.

Section Url.
Variable lib_parse : str -> url + str.
Variable violation : str -> option str.
Variable read_host : bool -> str -> (str * bool) + str.
Variable norm_path : bool -> str -> str.
Variable py_str : pyval -> str.
Variable f64_to_string : Float64.f64 -> str.
Notation url_text := (url_text py_str f64_to_string).
Notation parse_url := (parse_url lib_parse violation).
Notation check_sub_defaults := (check_sub_defaults read_host norm_path).

Lemma url_text_spec : forall strict i, url_text strict i = text_input strict i.
Proof.
  intros strict i. destruct i as [u|m|i]; try reflexivity. unfold Url.url_text, text_input, validate_str. destruct i as [v|j|t|v].
  - destruct v; cbn [strip]; try (destruct strict; reflexivity).
    + destruct strict; [reflexivity|]. destruct (from_utf8 _); reflexivity.
    + destruct (strip v) as [| | | | |b| | | | | | |]; try (destruct strict; reflexivity). destruct strict; [reflexivity|]. destruct (from_utf8 b); reflexivity.
  - destruct j; try reflexivity; destruct strict; reflexivity.
  - reflexivity.
  - destruct (as_str v); reflexivity.
Qed.

Lemma check_length_spec : forall A c t (r : ures A),
  ubind (check_length c t) (fun _ => r) = first_err (too_long c t) r.
Proof.
  clear lib_parse violation read_host norm_path. intros A c t r. unfold check_length, too_long. destruct (uc_max c) as [m|]; [|reflexivity].
  destruct (N.leb_spec (N.of_nat (length (utf8 t))) m) as [L|L], (N.ltb_spec m (N.of_nat (length (utf8 t)))) as [L'|L']; try lia; reflexivity.
Qed.

Lemma parse_url_spec : forall A strict t (f : url -> ures A),
  ubind (parse_url strict t) f =
  first_err (unreadable lib_parse violation strict t) (match lib_parse t with inl u => f u | inr e => UErr (UrlParsing e) end).
Proof.
  intros A strict t f. unfold Url.parse_url, unreadable. destruct t as [|a t]; [reflexivity|].
  destruct (lib_parse (a :: t)) as [u|e]; [|reflexivity]. destruct strict; [|reflexivity]. destruct (violation (a :: t)); reflexivity.
Qed.

Lemma check_scheme_spec : forall A c u (r : ures A),
  ubind (check_scheme c u) (fun _ => r) = first_err (wrong_scheme c u) r.
Proof.
  intros A c u r. unfold check_scheme, wrong_scheme. destruct (uc_schemes c) as [[l text]|]; [|reflexivity].
  destruct (existsb (str_eqb (u_scheme u)) l) eqn:E; destruct (in_dec (list_eq_dec N.eq_dec) (u_scheme u) l) as [I|I]; try reflexivity.
  - exfalso. apply I. apply existsb_exists in E. destruct E as (x & Hx & E). apply str_eqb_eq in E. rewrite E. exact Hx.
  - exfalso. assert (K : existsb (str_eqb (u_scheme u)) l = true) by (apply existsb_exists; exists (u_scheme u); split; [exact I|apply str_eqb_refl]). congruence.
Qed.

Lemma sub_defaults_spec : forall c u,
  match no_host read_host c u ++ no_place_for_port read_host c u with
  | e :: _ => check_sub_defaults c u = UErr e
  | [] => exists v, completed read_host norm_path c u v /\ check_sub_defaults c u = UOk (v, negb (untouched c u))
                 /\ (untouched c u = true -> v = u)
  end.
Proof.
  intros c u. unfold no_host, no_place_for_port, Url.check_sub_defaults, untouched, host_missing, port_missing, path_missing, has_host, set_host, default_host.
  destruct u as [sch us pa ho dom sl po path q f]. cbn [u_scheme u_user u_pass u_host u_domain u_slashes u_port u_path u_query u_frag given negb].
  set (special := schema_is_special sch) in *.
  assert (Path : forall ho' dom' sl' po' m, (ho' = None -> sl' = sl) ->
    (ho', dom') = (if negb (given ho) then match default_host read_host c (mk_url sch us pa ho dom sl po path q f) with Some (h, d) => (Some h, d) | None => (None, dom) end else (ho, dom)) ->
    po' = match po, uc_port c with
          | Some p, _ => Some p
          | None, Some p => match default_port sch with Some q => if N.eq_dec q p then None else Some p | None => Some p end
          | None, None => None end ->
    exists v, completed read_host norm_path c (mk_url sch us pa ho dom sl po path q f) v /\
     match uc_path c with
     | Some p => match path with
        | [] | [47] => UOk (set_path norm_path (mk_url sch us pa ho' dom' sl' po' path q f) p, true)
        | _ => UOk (mk_url sch us pa ho' dom' sl' po' path q f, m)
        end
     | None => UOk (mk_url sch us pa ho' dom' sl' po' path q f, m)
     end = UOk (v, (match path with [] | [47] => true | _ => false end && given (uc_path c)) || m)
     /\ (match path with [] | [47] => true | _ => false end && given (uc_path c) = false -> v = mk_url sch us pa ho' dom' sl' po' path q f)).
  { intros ho' dom' sl' po' m Es Eh Ep. destruct (uc_path c) as [p|] eqn:Ec.
    - assert (D : (match path with [] | [47] => true | _ => false end) = true \/ (match path with [] | [47] => true | _ => false end) = false)
        by (destruct (match path with [] | [47] => true | _ => false end); auto).
      destruct D as [D|D].
      + exists (set_path norm_path (mk_url sch us pa ho' dom' sl' po' path q f) p). split; [|split].
        * constructor; try reflexivity; try exact Eh; try exact Ep; try exact Es. unfold path_missing. cbn [u_path set_path u_scheme]. rewrite Ec, D. reflexivity.
        * rewrite D. destruct path as [|x path]; [reflexivity|]. destruct (N.eq_dec x 47) as [->|N].
          -- destruct path; [reflexivity|discriminate D].
          -- exfalso. clear -D N. destruct x as [|x]; [discriminate|]. repeat (destruct x as [x|x|]; try discriminate). apply N; reflexivity.
        * rewrite D. discriminate.
      + exists (mk_url sch us pa ho' dom' sl' po' path q f). split; [|split; [|reflexivity]].
        * constructor; try reflexivity; try exact Eh; try exact Ep; try exact Es. unfold path_missing. cbn [u_path]. rewrite Ec, D. reflexivity.
        * rewrite D. destruct path as [|x path]; [discriminate D|]. destruct (N.eq_dec x 47) as [->|N].
          -- destruct path; [discriminate D|reflexivity].
          -- clear -N. destruct x as [|x]; [reflexivity|]. repeat (destruct x as [x|x|]; try reflexivity). exfalso; apply N; reflexivity.
    - eexists. split; [|split; [cbn [given]; rewrite andb_false_r; reflexivity|reflexivity]].
      constructor; try reflexivity; try exact Eh; try exact Ep; try exact Es. rewrite Ec. reflexivity. }
  unfold default_host in Path. cbn [u_scheme] in Path. fold special in Path.
  cbn [u_scheme u_user u_pass u_host u_domain u_slashes u_port u_path u_query u_frag].
  destruct ho as [ho|]; cbn [given negb andb app ubind u_port u_path] in *.
  - (* host given *)
    destruct (uc_port c) as [p|] eqn:Ecp; [destruct po as [po'|]|]; cbn [given negb andb app ubind u_port u_path] in *.
    + destruct (Path (Some ho) dom sl (Some po') false (fun _ => eq_refl) eq_refl eq_refl) as (v & V & Hv & Hu). exists v. split; [exact V|]. cbn [ubind u_port u_path]. rewrite Hv. rewrite orb_false_r, negb_involutive. split; [reflexivity|]. rewrite negb_true_iff. exact Hu.
    + unfold set_port. cbn [u_host u_scheme u_user u_pass u_domain u_slashes u_path u_query u_frag]. destruct ho as [|x ho]; [reflexivity|]. cbn [nonempty andb].
      destruct (str_eqb sch (lit "file")); [reflexivity|]. cbn [negb ubind u_port u_path].
      edestruct (Path (Some (x :: ho)) dom sl) as (v & V & Hv & Hu); [first [reflexivity|discriminate]|reflexivity|reflexivity|]. exists v. split; [exact V|]. 
      replace (match default_port sch with Some q0 => if q0 =? p then None else Some p | None => Some p end)
        with (match default_port sch with Some q0 => if N.eq_dec q0 p then None else Some p | None => Some p end)
        by (destruct (default_port sch) as [q0|]; [|reflexivity]; destruct (N.eq_dec q0 p) as [->|Nq]; [rewrite N.eqb_refl; reflexivity|apply N.eqb_neq in Nq; rewrite Nq; reflexivity]).
      rewrite Hv, orb_true_r. split; [reflexivity|discriminate].
    + edestruct (Path (Some ho) dom sl po false) as (v & V & Hv & Hu); [first [reflexivity|discriminate]|reflexivity|destruct po; reflexivity|]. exists v. split; [exact V|]. cbn [ubind u_port u_path]. rewrite Hv, orb_false_r, andb_false_r. cbn [negb andb]. rewrite negb_involutive. split; [reflexivity|]. rewrite negb_true_iff. exact Hu.
  - (* no host *)
    destruct (uc_host c) as [h|] eqn:Ech; cbn [given negb andb].
    + destruct (cannot_be_a_base (mk_url sch us pa None dom sl po path q f)) eqn:Eb; [reflexivity|].
      fold special. destruct (read_host special h) as [[h' d']|e] eqn:Er; [|reflexivity].
      cbn [app ubind u_port u_path].
      destruct (uc_port c) as [p|] eqn:Ecp; [destruct po as [po'|]|]; cbn [given negb andb app ubind u_port u_path] in *.
      * edestruct (Path (Some h') d' true (Some po') true) as (v & V & Hv & Hu); [first [reflexivity|discriminate]|reflexivity|reflexivity|]. exists v. split; [exact V|]. rewrite Hv, orb_true_r. split; [reflexivity|discriminate].
      * unfold set_port. cbn [u_host u_scheme u_user u_pass u_domain u_slashes u_path u_query u_frag]. destruct h' as [|x h']; [reflexivity|]. cbn [nonempty andb].
        destruct (str_eqb sch (lit "file")); [reflexivity|]. cbn [negb ubind u_port u_path].
        edestruct (Path (Some (x :: h')) d' true) as (v & V & Hv & Hu); [first [reflexivity|discriminate]|reflexivity|reflexivity|]. exists v. split; [exact V|].
        replace (match default_port sch with Some q0 => if q0 =? p then None else Some p | None => Some p end)
          with (match default_port sch with Some q0 => if N.eq_dec q0 p then None else Some p | None => Some p end)
          by (destruct (default_port sch) as [q0|]; [|reflexivity]; destruct (N.eq_dec q0 p) as [->|Nq]; [rewrite N.eqb_refl; reflexivity|apply N.eqb_neq in Nq; rewrite Nq; reflexivity]).
        rewrite Hv, orb_true_r. split; [reflexivity|discriminate].
      * edestruct (Path (Some h') d' true po true) as (v & V & Hv & Hu); [first [reflexivity|discriminate]|reflexivity|destruct po; reflexivity|]. exists v. split; [exact V|]. rewrite Hv, orb_true_r. split; [reflexivity|discriminate].
    + destruct (uc_host_required c); [reflexivity|]. cbn [app ubind u_port u_path].
      destruct (uc_port c) as [p|] eqn:Ecp; [destruct po as [po'|]|]; cbn [given negb andb app ubind u_port u_path] in *.
      * edestruct (Path None dom sl (Some po') false) as (v & V & Hv & Hu); [first [reflexivity|discriminate]|reflexivity|reflexivity|]. exists v. split; [exact V|]. rewrite Hv, orb_false_r, negb_involutive. split; [reflexivity|]. rewrite negb_true_iff. exact Hu.
      * reflexivity.
      * edestruct (Path None dom sl po false) as (v & V & Hv & Hu); [first [reflexivity|discriminate]|reflexivity|destruct po; reflexivity|]. exists v. split; [exact V|]. rewrite Hv, orb_false_r, andb_false_r. cbn [negb andb]. rewrite negb_involutive. split; [reflexivity|]. rewrite negb_true_iff. exact Hu.
Qed.
End Url.
