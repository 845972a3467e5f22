(** Small specification for URL schemas (C70-C73). *)
From Coq Require Import List NArith Bool.
From Verif Require Import Base Utf8 Values VState Child Inputs Url.
Import ListNotations.
Open Scope N_scope.

(** The text an input stands for, if it is text. *)
Definition text_input (strict : bool) (i : uinput) : option str :=
  match i with
  | UOther (IPy v) =>
      match strip v with
      | PStr t => Some t
      | PBytes b => if strict then None else from_utf8 b
      | _ => None
      end
  | UOther (IJson (JStr t)) | UOther (IKey t) => Some t
  | UOther (IStrings v) => as_str v
  | _ => None
  end.

(** C70.  What an input text is refused for, before anything is completed; the first counts. *)
Definition given {A} (o : option A) : bool := match o with Some _ => true | None => false end.
Definition too_long (c : url_cfg) (t : str) : list uerr :=
  match uc_max c with Some m => if N.of_nat (length (utf8 t)) <=? m then [] else [UrlTooLong m] | None => [] end.
Definition unreadable (parse : str -> url + str) (violation : str -> option str) (strict : bool) (t : str) : list uerr :=
  match t with [] => [UrlParsing (lit "input is empty")] | _ =>
    (match parse t with inl _ => [] | inr e => [UrlParsing e] end)
    ++ (if strict then match violation t with Some v => [UrlSyntaxViolation v] | None => [] end else [])
  end.
(** And what a URL is refused for. *)
Definition wrong_scheme (c : url_cfg) (u : url) : list uerr :=
  match uc_schemes c with
  | Some (l, text) => if in_dec (list_eq_dec N.eq_dec) (u_scheme u) l then [] else [UrlScheme text]
  | None => []
  end.

(** A missing host, port or path is completed, everything else kept. *)
Definition host_missing (u : url) : bool := negb (given (u_host u)).
Definition port_missing (u : url) : bool := negb (given (u_port u)).
Definition path_missing (u : url) : bool := match u_path u with [] | [47] => true | _ => false end.

Section Completed.
Variable read_host : bool -> str -> (str * bool) + str.
Variable norm_path : bool -> str -> str.
Definition default_host (c : url_cfg) (u : url) : option (str * bool) :=
  match uc_host c with
  | Some h => match read_host (schema_is_special (u_scheme u)) h with inl x => Some x | inr _ => None end
  | None => None
  end.
(** The completed URL, component by component. *)
Record completed (c : url_cfg) (u v : url) : Prop := {
  co_scheme : u_scheme v = u_scheme u;
  co_user : u_user v = u_user u;
  co_pass : u_pass v = u_pass u;
  co_query : u_query v = u_query u;
  co_frag : u_frag v = u_frag u;
  co_host : (u_host v, u_domain v) =
    (if host_missing u then match default_host c u with Some (h, d) => (Some h, d) | None => (None, u_domain u) end
     else (u_host u, u_domain u));
  co_slashes : u_host v = None -> u_slashes v = u_slashes u;
  co_port : u_port v =
    match u_port u, uc_port c with
    | Some p, _ => Some p
    | None, Some p => match default_port (u_scheme u) with Some q => if N.eq_dec q p then None else Some p | None => Some p end
    | None, None => None
    end;
  co_path : u_path v =
    match uc_path c with
    | Some p => if path_missing u then norm_path (schema_is_special (u_scheme u)) p else u_path u
    | None => u_path u
    end
}.
Definition no_host (c : url_cfg) (u : url) : list uerr :=
  if host_missing u then
    match uc_host c with
    | Some h => if cannot_be_a_base u then [UrlParsing (lit "a cannot-be-a-base URL doesn't have a host to set")]
                else match read_host (schema_is_special (u_scheme u)) h with inl _ => [] | inr e => [UrlParsing e] end
    | None => if uc_host_required c then [UrlParsing (lit "empty host")] else []
    end
  else [].
(** A port can only be put after a host, and not into a file URL. *)
Definition no_place_for_port (c : url_cfg) (u : url) : list uerr :=
  match uc_port c with
  | Some _ =>
      if port_missing u then
        match (if host_missing u then match default_host c u with Some (h, _) => h | None => [] end
               else match u_host u with Some h => h | None => [] end), str_eqb (u_scheme u) (lit "file") with
        | _ :: _, false => []
        | _, _ => [UrlParsing (lit "empty host")]
        end
      else []
  | None => []
  end.
Definition refused (c : url_cfg) (u : url) : list uerr := wrong_scheme c u ++ no_host c u ++ no_place_for_port c u.
End Completed.

Definition untouched (c : url_cfg) (u : url) : bool :=
  negb (host_missing u && given (uc_host c)) && negb (port_missing u && given (uc_port c)) && negb (path_missing u && given (uc_path c)).

(** C71.  The parts of a text with hosts [hs], each followed by a comma, and a last one. *)
Definition is_space (c : N) : Prop := c <= 32.
Definition is_slash (c : N) : Prop := c = 47 \/ c = 92.
Definition stops (special : bool) (c : N) : Prop := c = 47 \/ c = 63 \/ c = 35 \/ (special = true /\ c = 92).
Definition lower : str -> str := map ascii_lower.
Record host_list (t prefix scheme : str) (hs : list str) (last rest : str) : Prop := {
  hl_parts : exists space slashes, prefix = space ++ scheme ++ [58] ++ slashes
               /\ Forall is_space space /\ Forall is_slash slashes;
  hl_scheme : scheme <> [] /\ Forall (fun c => scheme_char c = true) scheme;
  hl_text : t = prefix ++ concat (map (fun h => h ++ [44]) hs) ++ last ++ rest;
  hl_hosts : Forall (fun h => h <> [] /\ Forall (fun c => c <> 44 /\ ~ stops (schema_is_special (lower scheme)) c) h) hs;
  hl_last : Forall (fun c => c <> 44 /\ ~ stops (schema_is_special (lower scheme)) c) last;
  hl_rest : match rest with [] => True | c :: _ => stops (schema_is_special (lower scheme)) c end;
  hl_first : match concat (map (fun h => h ++ [44]) hs) ++ last ++ rest with [] => True | c :: _ => ~ is_slash c end
}.

Section Reads.
Variable parse : str -> url + str.
Variable violation : str -> option str.
Definition reads (strict : bool) (t : str) (u : url) : Prop :=
  t <> [] /\ parse t = inl u /\ (strict = true -> violation t = None).
Inductive multi_reads (strict : bool) : str -> multi -> Prop :=
| mr_one : forall t prefix scheme last rest u, host_list t prefix scheme [] last rest -> reads strict t u ->
    multi_reads strict t (mk_multi u None)
| mr_many : forall t prefix scheme hs last rest u es, host_list t prefix scheme hs last rest -> hs <> [] ->
    reads strict (prefix ++ last ++ rest) u -> u_host u <> None ->
    Forall2 (fun h e => reads strict (prefix ++ h) e /\ u_host e <> None) hs es ->
    multi_reads strict t (mk_multi u (Some es)).
End Reads.

(** C72.  What is supposed of the url crate: [Url::parse] gives well-formed URLs, reads their
    texts back, and what precedes a root path as well. *)
Definition low_scheme (s : str) : Prop :=
  s <> [] /\ Forall (fun c => scheme_char c = true) s /\ lower s = s.
Definition clean (s : str) : Prop := Forall (fun c => ~ In c [47; 92; 63; 35]) s.
Definition root (u : url) : str := if schema_is_special (u_scheme u) then [47] else [].
Definition bare (u : url) : Prop := u_path u = root u /\ u_query u = None /\ u_frag u = None.
Record well_formed (u : url) : Prop := {
  wf_scheme : low_scheme (u_scheme u);
  wf_host : u_host u <> Some [];
  wf_authority : clean (authority u);
  wf_path : u_host u <> None -> match u_path u with [] => schema_is_special (u_scheme u) = false | c :: _ => c = 47 end
}.
Record library_ok (parse : str -> url + str) : Prop := {
  lib_shape : forall t u, parse t = inl u -> well_formed u;
  lib_stable : forall t u, parse t = inl u -> parse (url_str u) = inl u;
  lib_root : forall t u, parse t = inl u -> u_host u <> None -> bare u -> parse (u_scheme u ++ lit "://" ++ authority u) = inl u;
  lib_scheme : forall space scheme r u, Forall is_space space -> scheme <> [] -> Forall (fun c => scheme_char c = true) scheme ->
    parse (space ++ scheme ++ 58 :: r) = inl u -> u_scheme u = lower scheme;
  lib_bare : forall space scheme slashes h u, Forall is_space space -> scheme <> [] -> Forall (fun c => scheme_char c = true) scheme ->
    Forall is_slash slashes -> Forall (fun c => ~ stops (schema_is_special (lower scheme)) c) h ->
    parse (space ++ scheme ++ 58 :: slashes ++ h) = inl u -> u_host u <> None -> bare u
}.
Definition comma_free (u : url) : Prop :=
  match u_host u with Some _ => ~ In 44 (authority u) | None => ~ In 44 (u_path u) end.
Definition all_urls (m : multi) : list url := (match mh_extra m with Some l => l | None => [] end) ++ [mh_ref m].

(** The text of a URL, with [host] giving what is written for user, host and port; of a
    multi-host URL with all hosts in order. *)
Definition single_text (host : url -> str) (u : url) : str :=
  match u_host u with Some _ => u_scheme u ++ lit "://" ++ host u ++ tail_text u | None => url_str u end.
Definition hosts_text (host : url -> str) (m : multi) : str :=
  match mh_extra m with
  | Some l => u_scheme (mh_ref m) ++ lit "://" ++ join_comma (map host (l ++ [mh_ref m])) ++ tail_text (mh_ref m)
  | None => single_text host (mh_ref m)
  end.
(** Every host of a multi-host URL is a URL of the same scheme; only the last has a path. *)
Definition consistent (m : multi) : Prop :=
  match mh_extra m with
  | Some l => l <> [] /\ Forall (fun e => u_host e <> None /\ bare e /\ u_scheme e = u_scheme (mh_ref m)) l /\ u_host (mh_ref m) <> None
  | None => True
  end.
(** User, host and port with the host decoded. *)
Definition unicode_authority (decode : str -> option str) (u : url) : str :=
  userinfo u ++ (match unicode_host decode u with Some h => h | None => match u_host u with Some h => h | None => [] end end)
  ++ after 58 (option_map port_text (u_port u)).

(** C73.  A URL's components as they are given to [build]. *)
Definition parts_of (u : url) : host_parts :=
  mk_hp (match u_user u with [] => None | s => Some s end) (u_pass u) (u_host u) (u_port u).
Definition path_of (u : url) : option str := match u_path u with [] => None | _ :: p => Some p end.
