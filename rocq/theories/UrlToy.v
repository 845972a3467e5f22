(** A small library for the examples of C70-C73: the URLs of a table are read, all others refused. *)
From Coq Require Import List NArith Bool Lia.
From Verif Require Import Base Utf8 Values VState Child Inputs Scalars Url UrlSpec UrlProofs UrlProofs2 UrlProofs3.
Import ListNotations.
Open Scope N_scope.

Fixpoint find (l : list (str * url)) (t : str) : option url :=
  match l with [] => None | (k, u) :: r => if str_eqb k t then Some u else find r t end.
Definition toy (l : list (str * url)) (t : str) : url + str :=
  match find l t with Some u => inl u | None => inr (lit "relative URL without a base") end.

Definition finds (l : list (str * url)) (t : str) (u : url) : Prop := find l t = Some u.
Record entry_good (l : list (str * url)) (t : str) (u : url) : Prop := {
  eg_shape : well_formed u;
  eg_stable : finds l (url_str u) u;
  eg_root : u_host u <> None -> bare u -> finds l (u_scheme u ++ lit "://" ++ authority u) u;
  eg_scheme : match take_scheme (snd (skip_space t)) with
              | Some (scheme, r) => u_scheme u = lower scheme
                 /\ (existsb (host_end (schema_is_special (lower scheme))) (snd (take_slashes r)) = false -> u_host u <> None -> bare u)
              | None => True
              end
}.
Lemma find_in : forall l t u, find l t = Some u -> exists k, In (k, u) l /\ str_eqb k t = true.
Proof.
  induction l as [|[k v] l IH]; intros t u H; cbn [find] in H; [discriminate|].
  destruct (str_eqb k t) eqn:E.
  - injection H as ->. exists k. split; [left; reflexivity|exact E].
  - destruct (IH t u H) as (k' & I & E'). exists k'. split; [right; exact I|exact E'].
Qed.
Lemma toy_ok : forall l, Forall (fun '(t, u) => entry_good l t u) l -> library_ok (toy l).
Proof.
  intros l F.
  assert (G : forall t u, toy l t = inl u -> entry_good l t u).
  { intros t u H. unfold toy in H. destruct (find l t) as [v|] eqn:E; [|discriminate]. injection H as ->.
    apply find_in in E. destruct E as (k & I & E). apply str_eqb_eq in E. subst k. rewrite Forall_forall in F. exact (F _ I). }
  assert (P : forall t u, finds l t u -> toy l t = inl u) by (intros t u H; unfold toy; rewrite H; reflexivity).
  assert (Q : forall space scheme r, Forall is_space space -> scheme <> [] -> Forall (fun c => scheme_char c = true) scheme ->
     take_scheme (snd (skip_space (space ++ scheme ++ 58 :: r))) = Some (scheme, r)).
  { intros space scheme r Hs Hn Hc. rewrite skip_space_app; [|exact Hs|].
    - cbn [snd]. apply take_scheme_app. exact Hc.
    - destruct Hc as [|c s Hc]; [contradiction Hn; reflexivity|]. cbn [app]. apply scheme_char_bounds in Hc. lia. }
  split.
  - intros t u H. exact (eg_shape _ _ _ (G t u H)).
  - intros t u H. apply P, (eg_stable _ _ _ (G t u H)).
  - intros t u H H1 H2. apply P, (eg_root _ _ _ (G t u H)); assumption.
  - intros space scheme r u Hs Hn Hc H. pose proof (eg_scheme _ _ _ (G _ u H)) as E. rewrite Q in E by assumption. apply E.
  - intros space scheme slashes h u Hs Hn Hc Hsl Hh H Hu. pose proof (eg_scheme _ _ _ (G _ u H)) as E. rewrite Q in E by assumption.
    destruct E as [_ E]. apply E; [|exact Hu].
    assert (K : Forall (fun c => ~ stops (schema_is_special (lower scheme)) c) (snd (take_slashes (slashes ++ h)))).
    { clear - Hsl Hh. induction Hsl as [|c s Hc Hsl IH]; cbn [app].
      - induction Hh as [|c h Hc Hh IH]; cbn [take_slashes]; [constructor|]. destruct ((c =? 47) || (c =? 92)).
        + destruct (take_slashes h). exact IH.
        + constructor; assumption.
      - cbn [take_slashes]. unfold is_slash in Hc. assert (B : (c =? 47) || (c =? 92) = true) by (rewrite orb_true_iff, !N.eqb_eq; exact Hc).
        rewrite B. destruct (take_slashes (s ++ h)). exact IH. }
    destruct (existsb _ _) eqn:B; [|reflexivity]. apply existsb_exists in B. destruct B as (c & I & Ec). apply host_end_spec in Ec.
    rewrite Forall_forall in K. contradiction (K c I Ec).
Qed.
