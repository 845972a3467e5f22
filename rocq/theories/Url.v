(** Model of URL schemas: src/validators/url.rs, src/url.rs, and the url serializer. *)
From Coq Require Import List NArith ZArith Bool.
From Verif Require Import Base Utf8 Values VState Inputs Scalars.
Import ListNotations.
Open Scope N_scope.

(** The url crate's [Url] (external), by its components.  [u_user] is empty when there is
    none; [u_host] is the host's text, [u_domain] tells a domain from an address;
    [u_slashes] that "//" stands before the path although there is no host (as in
    "file:///a"); [u_port] is [None] for the scheme's own port. *)
Record url := mk_url {
  u_scheme : str; u_user : str; u_pass : option str; u_host : option str; u_domain : bool; u_slashes : bool;
  u_port : option N; u_path : str; u_query : option str; u_frag : option str }.

Definition nonempty (s : str) : bool := match s with [] => false | _ => true end.
Definition after (sep : N) (s : option str) : str := match s with Some x => sep :: x | None => [] end.

(** Username and password as they are written before the host (url crate). *)
Definition userinfo (u : url) : str :=
  u_user u ++ after 58 (u_pass u) ++ (if nonempty (u_user u) || (match u_pass u with Some _ => true | None => false end) then [64] else []).
Fixpoint dec_digits (fuel : nat) (n : N) : str :=
  match fuel with
  | O => []
  | S f => if n <? 10 then [48 + n] else dec_digits f (n / 10) ++ [48 + n mod 10]
  end.
(** A port number (at most five digits) in decimal. *)
Definition port_text (p : N) : str := dec_digits 5 p.
Definition authority (u : url) : str :=
  match u_host u with
  | Some h => userinfo u ++ h ++ after 58 (option_map port_text (u_port u))
  | None => []
  end.
(** What follows the authority. *)
Definition tail_text (u : url) : str := u_path u ++ after 63 (u_query u) ++ after 35 (u_frag u).
(** [Url::as_str] (external). *)
Definition url_str (u : url) : str :=
  u_scheme u ++ [58]
  ++ (match u_host u with
      | Some _ => [47; 47] ++ authority u
      | None => if u_slashes u then [47; 47]
                else match u_path u with 47 :: 47 :: _ => [47; 46] | _ => [] end
      end)
  ++ tail_text u.

Definition has_host (u : url) : bool := match u_host u with Some _ => true | None => false end.

(** url.rs:516-519 [schema_is_special]. *)
Definition schema_is_special (s : str) : bool :=
  str_eqb s (lit "http") || str_eqb s (lit "https") || str_eqb s (lit "ws") || str_eqb s (lit "wss")
  || str_eqb s (lit "ftp") || str_eqb s (lit "file").

(** The url crate's table of ports (external). *)
Definition default_port (s : str) : option N :=
  if str_eqb s (lit "http") || str_eqb s (lit "ws") then Some 80
  else if str_eqb s (lit "https") || str_eqb s (lit "wss") then Some 443
  else if str_eqb s (lit "ftp") then Some 21 else None.

(** url.rs:198-201 [PyMultiHostUrl]. *)
Record multi := mk_multi { mh_ref : url; mh_extra : option (list url) }.

(** Inputs: a [Url] or [MultiHostUrl] instance, or anything else. *)
Inductive uinput := UUrl (u : url) | UMulti (m : multi) | UOther (i : input).

Inductive uerr :=
| UrlType | UrlTooLong (max : N) | UrlParsing (e : str) | UrlSyntaxViolation (e : str) | UrlScheme (expected : str).
Inductive ures (A : Type) := UOk (a : A) | UErr (e : uerr).
Arguments UOk {A} a. Arguments UErr {A} e.
Definition ubind {A B} (r : ures A) (f : A -> ures B) : ures B := match r with UOk a => f a | UErr e => UErr e end.

(** validators/url.rs:28-37, 192-201: the two validators have the same settings; of the
    allowed schemes also their text in the error. *)
Record url_cfg := {
  uc_strict : bool; uc_max : option N; uc_schemes : option (list str * str); uc_host_required : bool;
  uc_host : option str; uc_port : option N; uc_path : option str }.

(** The result: the very object that was given, or a new one. *)
Inductive got (A : Type) := Same (a : A) | New (a : A).
Arguments Same {A} a. Arguments New {A} a.
Definition got_of {A} (g : got A) : A := match g with Same a | New a => a end.

Section Url.
(** [Url::parse] (external): a URL or the text of the error. *)
Variable lib_parse : str -> url + str.
(** The last syntax violation reported while parsing, other than embedded credentials (external). *)
Variable violation : str -> option str.
(** Reading of a host given to [set_host] (external): for a special scheme or not. *)
Variable read_host : bool -> str -> (str * bool) + str.
(** Normalisation of a path given to [set_path] (external). *)
Variable norm_path : bool -> str -> str.
(** [idna::punycode::decode_to_string] (external). *)
Variable decode : str -> option str.
Variable py_str : pyval -> str.
Variable f64_to_string : Float64.f64 -> str.

(** ParseError texts (external). *)
Definition empty_host : str := lit "empty host".
Definition no_base : str := lit "relative URL without a base".
Definition cannot_be_base : str := lit "a cannot-be-a-base URL doesn't have a host to set".
(** validators/url.rs:638 [EMPTY_INPUT]. *)
Definition empty_input : str := lit "input is empty".

(** validators/url.rs:483-542 [parse_url]. *)
Definition parse_url (strict : bool) (t : str) : ures url :=
  match t with
  | [] => UErr (UrlParsing empty_input)
  | _ =>
      match lib_parse t with
      | inl u => if strict then match violation t with Some v => UErr (UrlSyntaxViolation v) | None => UOk u end else UOk u
      | inr e => UErr (UrlParsing e)
      end
  end.

(** [Url::set_host], [Url::set_port], [Url::set_path] (external). *)
Definition cannot_be_a_base (u : url) : bool :=
  negb (has_host u) && negb (u_slashes u) && negb (match u_path u with 47 :: _ => true | _ => false end).
Definition set_host (u : url) (h : str) : ures url :=
  if cannot_be_a_base u then UErr (UrlParsing cannot_be_base)
  else match read_host (schema_is_special (u_scheme u)) h with
       | inl (h, d) => UOk (mk_url (u_scheme u) (u_user u) (u_pass u) (Some h) d true (u_port u) (u_path u) (u_query u) (u_frag u))
       | inr e => UErr (UrlParsing e)
       end.
Definition set_port (u : url) (p : N) : option url :=
  match u_host u with
  | None => None
  | Some h =>
      if nonempty h && negb (str_eqb (u_scheme u) (lit "file"))
      then Some (mk_url (u_scheme u) (u_user u) (u_pass u) (u_host u) (u_domain u) (u_slashes u)
                   (match default_port (u_scheme u) with Some q => if q =? p then None else Some p | None => Some p end)
                   (u_path u) (u_query u) (u_frag u))
      else None
  end.
Definition set_path (u : url) (p : str) : url :=
  mk_url (u_scheme u) (u_user u) (u_pass u) (u_host u) (u_domain u) (u_slashes u) (u_port u)
    (norm_path (schema_is_special (u_scheme u)) p) (u_query u) (u_frag u).

(** validators/url.rs:545-581 [check_sub_defaults].  The trait's [url_mut] (180-188, 353-361)
    turns the given object into a new one: the [bool] says whether it was called. *)
Definition check_sub_defaults (c : url_cfg) (u : url) : ures (url * bool) :=
  ubind (if has_host u then UOk (u, false)
         else match uc_host c with
              | Some h => ubind (set_host u h) (fun u => UOk (u, true))
              | None => if uc_host_required c then UErr (UrlParsing empty_host) else UOk (u, false)
              end) (fun '(u, m) =>
  ubind (match uc_port c with
         | Some p => match u_port u with
                     | None => match set_port u p with Some u => UOk (u, true) | None => UErr (UrlParsing empty_host) end
                     | Some _ => UOk (u, m)
                     end
         | None => UOk (u, m)
         end) (fun '(u, m) =>
  match uc_path c with
  | Some p => match u_path u with
              | [] | [47] => UOk (set_path u p, true)
              | _ => UOk (u, m)
              end
  | None => UOk (u, m)
  end)).

(** validators/url.rs:138-151, 308-324 [check_length]: [str::len], in bytes. *)
Definition check_length (c : url_cfg) (t : str) : ures unit :=
  match uc_max c with
  | Some m => if m <? N.of_nat (length (utf8 t)) then UErr (UrlTooLong m) else UOk tt
  | None => UOk tt
  end.

(** validators/url.rs:74-85, 244-255 (the check of [allowed_schemes]). *)
Definition check_scheme (c : url_cfg) (u : url) : ures unit :=
  match uc_schemes c with
  | Some (l, text) => if existsb (str_eqb (u_scheme u)) l then UOk tt else UErr (UrlScheme text)
  | None => UOk tt
  end.

(** [input.validate_str(strict, false)]; a Url object is not a string. *)
Definition url_text (strict : bool) (i : uinput) : option str :=
  match i with
  | UOther i => match validate_str py_str f64_to_string strict false i with VOk (t, _) => Some t | VErr _ => None end
  | _ => None
  end.

(** url.rs:272-326: removal of a special scheme's trailing slash and the joining of the hosts. *)
Fixpoint join_comma (l : list str) : str :=
  match l with [] => [] | [x] => x | x :: r => x ++ 44 :: join_comma r end.
Definition insert_at (n : nat) (x s : str) : str := firstn n s ++ x ++ skipn n s.
(** [&str[a..str.len() - sub]]. *)
Definition slice_to (a sub : nat) (s : str) : str := skipn a (firstn (length s - sub) s).
Definition multi_text (text : url -> str) (m : multi) : str :=
  match mh_extra m with
  | Some extra =>
      let scheme := u_scheme (mh_ref m) in
      let host_offset := (length scheme + 3)%nat in
      let full := insert_at host_offset [44] (text (mh_ref m)) in
      let sub := if schema_is_special scheme then 1%nat else 0%nat in
      insert_at host_offset (join_comma (map (fun u => slice_to host_offset sub (text u)) extra)) full
  | None => text (mh_ref m)
  end.
(** url.rs:300-326 [PyMultiHostUrl::__str__]. *)
Definition multi_str : multi -> str := multi_text url_str.

(** url.rs:480-514: [split('.')], [decode_punycode], [is_punnycode_domain], [unicode_url]. *)
Fixpoint split_dots (cur s : str) : list str :=
  match s with
  | [] => [cur]
  | c :: r => if c =? 46 then cur :: split_dots [] r else split_dots (cur ++ [c]) r
  end.
Definition puny_prefix : str := lit "xn--".
Definition strip_puny (chunk : str) : option str :=
  if str_eqb (firstn 4 chunk) puny_prefix then Some (skipn 4 chunk) else None.
Fixpoint decode_chunks (l : list str) : option str :=
  match l with
  | [] => Some []
  | c :: r =>
      match (match strip_puny c with Some x => decode x | None => Some c end), decode_chunks r with
      | Some x, Some y => Some (x ++ 46 :: y)
      | _, _ => None
      end
  end.
Definition decode_punycode (domain : str) : option str :=
  match decode_chunks (split_dots [] domain) with Some s => Some (removelast s) | None => None end.
Definition is_punycode_domain (u : url) (domain : str) : bool :=
  schema_is_special (u_scheme u)
  && existsb (fun c => match strip_puny c with Some _ => true | None => false end) (split_dots [] domain).
Definition replace_range (a n : nat) (x s : str) : str := firstn a s ++ x ++ skipn (a + n) s.
Definition unicode_url (u : url) : str :=
  match u_host u with
  | Some domain =>
      if u_domain u && is_punycode_domain u domain
      then match decode_punycode domain with
           | Some decoded => replace_range (length (u_scheme u) + 3) (length domain) decoded (url_str u)
           | None => url_str u
           end
      else url_str u
  | None => url_str u
  end.
(** url.rs:76-81 [unicode_host]. *)
Definition unicode_host (u : url) : option str :=
  match u_host u with
  | Some domain => if u_domain u && is_punycode_domain u domain then decode_punycode domain else Some domain
  | None => None
  end.
(** url.rs:272-298 [PyMultiHostUrl::unicode_string]. *)
Definition multi_unicode : multi -> str := multi_text unicode_url.
(** url.rs:332-341 [PyMultiHostUrl::__richcmp__] for [==]. *)
Definition multi_eqb (a b : multi) : bool := str_eqb (multi_unicode a) (multi_unicode b).
(** url.rs:128-137 [PyUrl::__richcmp__] for [==]: the url crate compares the texts. *)
Definition url_eqb (a b : url) : bool := str_eqb (url_str a) (url_str b).

(** url.rs:470-478 [host_to_dict], 237-250 [hosts]. *)
Record host_dict := mk_hd { hd_user : option str; hd_pass : option str; hd_host : option str; hd_port : option N }.
Definition port_or_known_default (u : url) : option N :=
  match u_port u with Some p => Some p | None => default_port (u_scheme u) end.
Definition host_to_dict (u : url) : host_dict :=
  mk_hd (if nonempty (u_user u) then Some (u_user u) else None) (u_pass u) (u_host u) (port_or_known_default u).
Definition hosts (m : multi) : list host_dict :=
  match mh_extra m with
  | Some extra => map host_to_dict extra ++ [host_to_dict (mh_ref m)]
  | None => if has_host (mh_ref m) then [host_to_dict (mh_ref m)] else []
  end.

(** validators/url.rs:109-136 [UrlValidator::get_url]. *)
Definition get_url (strict : bool) (c : url_cfg) (i : uinput) : ures (got url) :=
  match url_text strict i with
  | Some t => ubind (check_length c t) (fun _ => ubind (parse_url strict t) (fun u => UOk (New u)))
  | None =>
      match i with
      | UUrl u => ubind (check_length c (url_str u)) (fun _ => UOk (Same u))
      | UMulti m => ubind (check_length c (multi_str m)) (fun _ => ubind (parse_url strict (multi_str m)) (fun u => UOk (New u)))
      | UOther _ => UErr UrlType
      end
  end.

Definition strict_or (st : option bool) (b : bool) : bool := match st with Some s => s | None => b end.
Definition renew {A B} (g : got A) (mutated : bool) (b : B) : got B :=
  if mutated then New b else match g with Same _ => Same b | New _ => New b end.

(** validators/url.rs:66-101 [UrlValidator::validate]; the result comes with its exactness. *)
Definition url_validate (st : option bool) (c : url_cfg) (i : uinput) : ures (got url * exactness) :=
  ubind (get_url (strict_or st (uc_strict c)) c i) (fun g =>
  ubind (check_scheme c (got_of g)) (fun _ =>
  ubind (check_sub_defaults c (got_of g)) (fun '(u, m) => UOk (renew g m u, Lax)))).

(** validators/url.rs:612-636 [PositionedPeekable] and the loops of [parse_multihost_url]
    (validators/url.rs:364-481), on the characters that are left.  First the white space. *)
Fixpoint skip_space (s : str) : str * str :=
  match s with
  | c :: r => if c <=? 32 then let '(a, b) := skip_space r in (c :: a, b) else ([], s)
  | [] => ([], [])
  end.
Definition scheme_char (c : N) : bool :=
  ((97 <=? c) && (c <=? 122)) || ((65 <=? c) && (c <=? 90)) || ((48 <=? c) && (c <=? 57))
  || (c =? 43) || (c =? 45) || (c =? 46).
(** Then the scheme (validators/url.rs:403-419); [None] without one. *)
Fixpoint take_scheme (s : str) : option (str * str) :=
  match s with
  | c :: r =>
      if scheme_char c then match take_scheme r with Some (a, b) => Some (c :: a, b) | None => None end
      else if c =? 58 then Some ([], r) else None
  | [] => None
  end.
Definition ascii_lower (c : N) : N := if (65 <=? c) && (c <=? 90) then c + 32 else c.
(** Then any slashes (validators/url.rs:423-431). *)
Fixpoint take_slashes (s : str) : str * str :=
  match s with
  | c :: r => if (c =? 47) || (c =? 92) then let '(a, b) := take_slashes r in (c :: a, b) else ([], s)
  | [] => ([], [])
  end.
(** Then the hosts (validators/url.rs:436-452): those followed by a comma, and the text
    from the last one on; [None] is the error for an empty host. *)
Definition host_end (special : bool) (c : N) : bool :=
  (special && (c =? 92)) || (c =? 47) || (c =? 63) || (c =? 35).
Fixpoint split_hosts (special : bool) (cur s : str) : option (list str * str) :=
  match s with
  | [] => Some ([], cur)
  | c :: r =>
      if host_end special c then Some ([], cur ++ s)
      else if c =? 44 then
        match cur with
        | [] => None
        | _ => match split_hosts special [] r with Some (hs, t) => Some (cur :: hs, t) | None => None end
        end
      else split_hosts special (cur ++ [c]) r
  end.

Fixpoint parse_all (strict : bool) (l : list str) : ures (list url) :=
  match l with
  | [] => UOk []
  | t :: r => ubind (parse_url strict t) (fun u => ubind (parse_all strict r) (fun us => UOk (u :: us)))
  end.

(** validators/url.rs:364-481 [parse_multihost_url]. *)
Definition parse_multihost_url (strict : bool) (t : str) : ures multi :=
  match t with
  | [] => UErr (UrlParsing empty_input)
  | _ =>
      let '(space, s) := skip_space t in
      match take_scheme s with
      | None | Some ([], _) => UErr (UrlParsing no_base)
      | Some (scheme, s) =>
          let '(slashes, s) := take_slashes s in
          let prefix := space ++ scheme ++ [58] ++ slashes in
          match split_hosts (schema_is_special (map ascii_lower scheme)) [] s with
          | None => UErr (UrlParsing empty_host)
          | Some (hs, last) =>
              ubind (parse_url strict (prefix ++ last)) (fun ref =>
              match hs with
              | [] => UOk (mk_multi ref None)
              | _ =>
                  if negb (has_host ref) then UErr (UrlParsing empty_host)
                  else ubind (parse_all strict (map (fun h => prefix ++ h) hs)) (fun extra =>
                       if existsb (fun u => negb (has_host u)) extra then UErr (UrlParsing empty_host)
                       else UOk (mk_multi ref (Some extra)))
              end)
          end
      end
  end.

(** validators/url.rs:278-306 [MultiHostUrlValidator::get_url]. *)
Definition get_multi (strict : bool) (c : url_cfg) (i : uinput) : ures (got multi) :=
  match url_text strict i with
  | Some t => ubind (check_length c t) (fun _ => ubind (parse_multihost_url strict t) (fun m => UOk (New m)))
  | None =>
      match i with
      | UMulti m => ubind (check_length c (multi_str m)) (fun _ => UOk (Same m))
      | UUrl u => ubind (check_length c (url_str u)) (fun _ => UOk (New (mk_multi u None)))
      | UOther _ => UErr UrlType
      end
  end.

(** validators/url.rs:236-270 [MultiHostUrlValidator::validate]: the checks are made on, and the
    defaults put into, the last host's URL. *)
Definition multi_validate (st : option bool) (c : url_cfg) (i : uinput) : ures (got multi * exactness) :=
  ubind (get_multi (strict_or st (uc_strict c)) c i) (fun g =>
  ubind (check_scheme c (mh_ref (got_of g))) (fun _ =>
  ubind (check_sub_defaults c (mh_ref (got_of g))) (fun '(u, m) =>
  UOk (renew g m (mk_multi u (mh_extra (got_of g))), Lax)))).

(** url.rs:45-50, 225-230 [py_new]: the constructors validate with a plain schema. *)
Definition plain : url_cfg :=
  {| uc_strict := false; uc_max := None; uc_schemes := None; uc_host_required := false;
     uc_host := None; uc_port := None; uc_path := None |}.
Definition new_url (t : str) : ures url :=
  ubind (url_validate None plain (UOther (IPy (PStr t)))) (fun '(g, _) => UOk (got_of g)).
Definition new_multi (t : str) : ures multi :=
  ubind (multi_validate None plain (UOther (IPy (PStr t)))) (fun '(g, _) => UOk (got_of g)).

(** url.rs:426-437, 452-468 [UrlHostParts] and its [Display]. *)
Record host_parts := mk_hp { hp_user : option str; hp_pass : option str; hp_host : option str; hp_port : option N }.
Definition is_none {A} (o : option A) : bool := match o with None => true | Some _ => false end.
Definition parts_empty (h : host_parts) : bool :=
  is_none (hp_host h) && is_none (hp_pass h) && is_none (hp_host h) && is_none (hp_port h).
Definition opt_str (o : option str) : str := match o with Some s => s | None => [] end.
Definition parts_text (h : host_parts) : str :=
  (match hp_user h, hp_pass h with
   | Some u, None => u ++ [64]
   | None, Some p => 58 :: p ++ [64]
   | Some u, Some p => u ++ 58 :: p ++ [64]
   | None, None => []
   end)
  ++ opt_str (hp_host h) ++ after 58 (option_map port_text (hp_port h)).

(** [ValueError]s of [build] beside the validation error of the constructor. *)
Inductive bres (A : Type) := BOk (a : A) | BBothGiven | BEmptyHost | BNoHost | BInvalid (e : uerr).
Arguments BOk {A} a. Arguments BBothGiven {A}. Arguments BEmptyHost {A}. Arguments BNoHost {A}. Arguments BInvalid {A} e.
Definition bres_of {A} (r : ures A) : bres A := match r with UOk a => BOk a | UErr e => BInvalid e end.

(** url.rs:179-190, 409-420: path, query and fragment after the host. *)
Definition build_tail (path query frag : option str) : str := after 47 path ++ after 63 query ++ after 35 frag.
(** url.rs:161-192 [PyUrl::build]. *)
Definition url_build (scheme host : str) (user pass : option str) (port : option N) (path query frag : option str) : ures url :=
  new_url (scheme ++ lit "://" ++ parts_text (mk_hp user pass (Some host) port) ++ build_tail path query frag).

(** url.rs:383-396: the hosts, each followed by a comma but the last. *)
Fixpoint build_hosts (l : list host_parts) : option str :=
  match l with
  | [] => Some []
  | h :: r =>
      if parts_empty h then None
      else match build_hosts r with
           | Some t => Some (parts_text h ++ (match r with [] => [] | _ => [44] end) ++ t)
           | None => None
           end
  end.
(** url.rs:364-423 [PyMultiHostUrl::build]. *)
Definition multi_build (scheme : str) (hs : option (list host_parts)) (path query frag : option str)
    (host user pass : option str) (port : option N) : bres multi :=
  let finish (t : str) := bres_of (new_multi (t ++ build_tail path query frag)) in
  match hs with
  | Some l =>
      if negb (is_none host && is_none user && is_none pass && is_none port) then BBothGiven
      else match build_hosts l with Some t => finish (scheme ++ lit "://" ++ t) | None => BEmptyHost end
  | None =>
      match host with
      | Some _ => finish (scheme ++ lit "://" ++ parts_text (mk_hp user pass host port))
      | None => BNoHost
      end
  end.

(** serializers/type_serializers/url.rs:35-88: in JSON mode the text; else the object. *)
Definition ser_url_json (u : url) : str := url_str u.
Definition ser_multi_json (m : multi) : str := multi_str m.
End Url.
Arguments BOk {A} a. Arguments BBothGiven {A}. Arguments BEmptyHost {A}. Arguments BNoHost {A}. Arguments BInvalid {A} e.
