(** Lemmas about assignment. *)
From Coq Require Import List NArith ZArith Bool Lia.
From Verif Require Import Base Float64 Values VState LookupKey LookupKeyProofs Collections CollectionsSpec CollectionsProofs Child Wrappers Assign AssignSpec.
Import ListNotations.
Open Scope nat_scope.

Lemma keyed_nil : keyed [].
Proof. split; [intros ? ? []|constructor]. Qed.
Lemma keyed_tail kv d : keyed (kv :: d) -> keyed d.
Proof. intros [K N]. split; [intros k v I; eapply K; right; exact I|]. cbn in N. apply NoDup_cons_iff in N. apply N. Qed.
Lemma dict_set_keys_in k v d x : In x (map fst (dict_set k v d)) -> x = k \/ In x (map fst d).
Proof.
  destruct (dict_set_keys k v d) as [->| ->]; [auto|]. rewrite in_app_iff. cbn. intros [H|[H|[]]]; auto.
Qed.
Lemma keyed_set k v d : keyed d -> keyed (dict_set (PStr k) v d).
Proof.
  intros [K N]. split; [apply (str_keys_set d k v K)|]. clear -K N.
  induction d as [|[k0 v0] d IH]; [constructor; [intros []|constructor]|]. cbn [dict_set].
  destruct (K k0 v0 (or_introl eq_refl)) as [t ->]. rewrite py_eq_str. cbn [map fst] in N. apply NoDup_cons_iff in N. destruct N as [N1 N2].
  destruct (str_eqb t k) eqn:E; cbn [map fst]; constructor; auto.
  - intro I. apply dict_set_keys_in in I. destruct I as [I|I]; [|contradiction]. injection I as ->. rewrite str_eqb_refl in E. discriminate.
  - apply IH; [intros a b I; eapply K; right; exact I|exact N2].
Qed.
Lemma dict_get_none k d : keyed d -> dict_get (PStr k) d = None <-> ~ In (PStr k) (map fst d).
Proof.
  intros [K _]. induction d as [|[k0 v0] d IH]; [cbn; tauto|]. cbn [dict_get map fst].
  destruct (K k0 v0 (or_introl eq_refl)) as [t ->]. rewrite py_eq_str.
  assert (K' : forall k v, In (k, v) d -> exists s, k = PStr s) by (intros a b I; eapply K; right; exact I). specialize (IH K').
  destruct (str_eqb t k) eqn:E.
  - apply str_eqb_eq in E. subst t. split; [discriminate|]. intro H. contradiction H. left. reflexivity.
  - rewrite IH. cbn [In]. split; [|tauto]. intros H [I|I]; [|auto]. injection I as ->. rewrite str_eqb_refl in E. discriminate.
Qed.
Lemma dict_del_in k d x : In x (dict_del k d) -> In x d.
Proof. induction d as [|[k0 v0] d IH]; [auto|]. cbn [dict_del]. destruct (py_eq k0 k); cbn [In]; tauto. Qed.
Lemma keyed_del k d : keyed d -> keyed (dict_del (PStr k) d).
Proof.
  intros [K N]. split; [intros a b I; apply dict_del_in in I; eapply K; exact I|]. clear K.
  induction d as [|[k0 v0] d IH]; [constructor|]. cbn [dict_del]. cbn [map fst] in N. apply NoDup_cons_iff in N. destruct N as [N1 N2].
  destruct (py_eq k0 (PStr k)); [exact N2|]. cbn [map fst]. constructor; [|auto]. intro I. apply N1. apply in_map_iff in I. destruct I as (kv & <- & I).
  apply dict_del_in in I. apply in_map. exact I.
Qed.
Lemma dict_get_del s k d : keyed d -> dict_get (PStr s) (dict_del (PStr k) d) = if str_eqb s k then None else dict_get (PStr s) d.
Proof.
  induction d as [|[k0 v0] d IH]; intros KD; [cbn; destruct (str_eqb s k); reflexivity|]. cbn [dict_del dict_get].
  pose proof KD as [K N]. destruct (K k0 v0 (or_introl eq_refl)) as [t ->]. rewrite !py_eq_str.
  destruct (str_eqb t k) eqn:E.
  - apply str_eqb_eq in E. subst t. rewrite (str_eqb_sym k s). destruct (str_eqb s k) eqn:F; [|reflexivity].
    apply str_eqb_eq in F. subst s. apply dict_get_none; [eapply keyed_tail; exact KD|]. cbn in N. apply NoDup_cons_iff in N. apply N.
  - cbn [dict_get]. rewrite py_eq_str. destruct (str_eqb t s) eqn:F.
    + apply str_eqb_eq in F. subst t. rewrite E. reflexivity.
    + apply IH. eapply keyed_tail. exact KD.
Qed.
Lemma dict_get_set s k v d : keyed d -> dict_get (PStr s) (dict_set (PStr k) v d) = if str_eqb s k then Some v else dict_get (PStr s) d.
Proof. intros [K _]. rewrite dict_get_set_str by exact K. rewrite str_eqb_sym. reflexivity. Qed.
Lemma keyed_update e : forall d, keyed e -> keyed d -> keyed (dict_update e d).
Proof.
  unfold dict_update. induction e as [|[k v] e IH]; intros d KE KD; [exact KD|]. cbn [fold_left fst snd].
  apply IH; [eapply keyed_tail; exact KE|]. destruct KE as [K _]. destruct (K k v (or_introl eq_refl)) as [t ->]. apply keyed_set. exact KD.
Qed.
Lemma dict_get_update s e : forall d, keyed e -> keyed d ->
  dict_get (PStr s) (dict_update e d) = match dict_get (PStr s) e with Some v => Some v | None => dict_get (PStr s) d end.
Proof.
  unfold dict_update. induction e as [|[k v] e IH]; intros d KE KD; [reflexivity|]. cbn [fold_left fst snd dict_get].
  pose proof KE as [K N]. destruct (K k v (or_introl eq_refl)) as [t ->]. rewrite IH; [|eapply keyed_tail; exact KE|apply keyed_set; exact KD].
  rewrite dict_get_set by exact KD. rewrite py_eq_str, (str_eqb_sym t s). destruct (str_eqb s t) eqn:E; [|reflexivity].
  apply str_eqb_eq in E. subst t. cbn in N. apply NoDup_cons_iff in N. destruct N as [N _].
  replace (dict_get (PStr s) e) with (@None pyval); [reflexivity|]. symmetry. apply dict_get_none; [eapply keyed_tail; exact KE|exact N].
Qed.

Definition named (fs : list field) (n : str) : bool := existsb (fun f => str_eqb (f_name f) n) fs.
Lemma named_declared c n : named (fc_fields c) n = true <-> declared c n.
Proof.
  unfold named, declared. rewrite existsb_exists. split; intros (f & I & E); exists f; (split; [exact I|]); apply str_eqb_eq; exact E.
Qed.

Lemma split_fields_spec fs : forall d ne rest fields, keyed d -> keyed ne -> split_fields fs d ne = (rest, fields) ->
  keyed rest /\ keyed fields /\
  (forall n, dict_get (PStr n) rest = if named fs n then None else dict_get (PStr n) d) /\
  (forall n, dict_get (PStr n) fields = if named fs n then match dict_get (PStr n) d with Some v => Some v | None => dict_get (PStr n) ne end else dict_get (PStr n) ne).
Proof.
  induction fs as [|f fs IH]; intros d ne rest fields KD KN H; cbn [split_fields] in H.
  - injection H as <- <-. auto.
  - destruct (dict_get (PStr (f_name f)) d) as [v|] eqn:G.
    + destruct (IH _ _ _ _ (keyed_del _ _ KD) (keyed_set _ v _ KN) H) as (K1 & K2 & G1 & G2). repeat split; try apply K1; try apply K2; intro n.
      * rewrite G1, dict_get_del by exact KD. cbn [named existsb]. rewrite (str_eqb_sym (f_name f) n). fold (named fs n).
        destruct (named fs n), (str_eqb n (f_name f)); reflexivity.
      * rewrite G2, dict_get_del, dict_get_set by assumption. cbn [named existsb]. rewrite (str_eqb_sym (f_name f) n). fold (named fs n).
        destruct (str_eqb n (f_name f)) eqn:E; [apply str_eqb_eq in E; subst n; rewrite G|]; destruct (named fs _); reflexivity.
    + destruct (IH _ _ _ _ KD KN H) as (K1 & K2 & G1 & G2). repeat split; try apply K1; try apply K2; intro n.
      * rewrite G1. cbn [named existsb]. rewrite (str_eqb_sym (f_name f) n). fold (named fs n).
        destruct (str_eqb n (f_name f)) eqn:E; [apply str_eqb_eq in E; subst n; rewrite G|]; destruct (named fs _); reflexivity.
      * rewrite G2. cbn [named existsb]. rewrite (str_eqb_sym (f_name f) n). fold (named fs n).
        destruct (str_eqb n (f_name f)) eqn:E; [apply str_eqb_eq in E; subst n; rewrite G|]; destruct (named fs _); reflexivity.
Qed.

(** The dict that the model hands to its fields validator holds exactly the attributes,
    with the new raw value. *)
Definition merged (m : minst) : pydict := match as_dict (mi_extra m) with Some e => dict_update e (mi_dict m) | None => mi_dict m end.
Lemma merged_spec c m : instance_of c m -> keyed (merged m) /\ forall n, dict_get (PStr n) (merged m) = attr m n.
Proof.
  intros (KD & _ & HE). unfold merged, attr. destruct (fc_extra c).
  - destruct HE as (e & -> & KE & HX & HF). cbn [as_dict]. split; [apply keyed_update; assumption|]. intro n. rewrite dict_get_update by assumption.
    destruct (dict_get (PStr n) e) as [v|] eqn:G; [|destruct (dict_get _ (mi_dict m)); reflexivity].
    destruct (dict_get (PStr n) (mi_dict m)) as [w|] eqn:F; [|reflexivity]. exfalso. apply (HX n); [exists v; exact G|]. apply HF. exists w. exact F.
  - rewrite HE. cbn [as_dict]. split; [exact KD|]. intro n. destruct (dict_get _ (mi_dict m)); reflexivity.
  - rewrite HE. cbn [as_dict]. split; [exact KD|]. intro n. destruct (dict_get _ (mi_dict m)); reflexivity.
Qed.

Lemma find_named c n f : find (fun f => str_eqb (f_name f) n) (fc_fields c) = Some f -> In f (fc_fields c) /\ f_name f = n.
Proof. intro H. apply find_some in H. destruct H as [I E]. split; [exact I|]. apply str_eqb_eq. exact E. Qed.
Lemma find_none_named c n : find (fun f => str_eqb (f_name f) n) (fc_fields c) = None -> ~ declared c n.
Proof. intros H (f & I & E). pose proof (find_none _ _ H f I) as F. cbn in F. rewrite E, str_eqb_refl in F. discriminate. Qed.

Lemma find_unique c n f : NoDup (map f_name (fc_fields c)) -> In f (fc_fields c) -> f_name f = n -> find (fun f => str_eqb (f_name f) n) (fc_fields c) = Some f.
Proof.
  intros ND I E. induction (fc_fields c) as [|g l IH]; [destruct I|]. cbn [map] in ND. apply NoDup_cons_iff in ND. destruct ND as [N1 N2]. cbn [find].
  destruct (str_eqb (f_name g) n) eqn:EG.
  - destruct I as [->|I]; [reflexivity|]. apply str_eqb_eq in EG. exfalso. apply N1. rewrite EG, <- E. apply in_map. exact I.
  - destruct I as [->|I]; [rewrite E, str_eqb_refl in EG; discriminate EG|]. apply IH; assumption.
Qed.

Lemma set_add_strs l n : (forall x, In x l -> exists k, x = PStr k) ->
  (forall x, In x (set_add (PStr n) l) -> exists k, x = PStr k) /\ (forall k, In (PStr k) (set_add (PStr n) l) <-> In (PStr k) l \/ k = n).
Proof.
  intro H. unfold set_add. destruct (existsb (fun y => py_eq y (PStr n)) l) eqn:E.
  - split; [exact H|]. intro k. split; [auto|]. intros [I| ->]; [exact I|]. apply existsb_exists in E. destruct E as (y & I & Q). destruct (H y I) as [t ->].
    rewrite py_eq_str in Q. apply str_eqb_eq in Q. subst t. exact I.
  - split.
    + intros x I. apply in_app_iff in I. destruct I as [I|[<-|[]]]; [apply H; exact I|eauto].
    + intro k. rewrite in_app_iff. cbn. split; [intros [I|[I|[]]]; [auto|injection I as ->; auto]|intros [I| ->]; auto].
Qed.

(** What an inner validator that succeeded returned. *)
Lemma fields_assign_ok c d name value s out d' s' : model_fields_assign c d name value s = (VOk out, d', s') ->
  exists w, out = (match fc_extra c with
                   | ExtraAllow => let '(rest, fields) := split_fields (fc_fields c) (dict_set (PStr name) w d) [] in PTuple [PDict fields; PDict rest; PSet [PStr name]]
                   | _ => PTuple [PDict (dict_set (PStr name) w d); PNone; PSet [PStr name]]
                   end) /\
    ((exists f t t', In f (fc_fields c) /\ f_name f = name /\ f_frozen f = false /\ x_data (st_extra t) = Some (dict_del (PStr name) d) /\ x_field_name (st_extra t) = Some name /\
        cv_validate (f_cv f) (IPy value) t = (VOk w, t')) \/
     (exists v t t', ~ declared c name /\ fc_extra c = ExtraAllow /\ fc_extras c = Some v /\ x_data (st_extra t) = Some (dict_del (PStr name) d) /\ v (IPy value) t = (VOk w, t')) \/
     (~ declared c name /\ fc_extra c = ExtraAllow /\ fc_extras c = None /\ w = value)).
Proof.
  unfold model_fields_assign. intro H.
  destruct (find (fun f => str_eqb (f_name f) name) (fc_fields c)) as [f|] eqn:F.
  - destruct (find_named _ _ _ F) as [I E]. destruct (f_frozen f) eqn:FR; [discriminate H|].
    unfold rebind in H. match type of H with context [cv_validate ?a ?b ?t] => destruct (cv_validate a b t) as [[w|e] t'] eqn:V end; [|discriminate H].
    exists w. split; [|left; do 3 eexists; split; [exact I|split; [exact E|split; [exact FR|split; [|split; [|exact V]]]]]; [reflexivity|cbn; rewrite E; reflexivity]].
    destruct (fc_extra c); [|injection H as <- _ _; reflexivity..]. destruct (split_fields _ _ _). injection H as <- _ _. reflexivity.
  - pose proof (find_none_named _ _ F) as ND. destruct (fc_extra c) eqn:EX; [|discriminate H..]. destruct (fc_extras c) as [v|] eqn:EV.
    + unfold rebind in H. match type of H with context [v ?b ?t] => destruct (v b t) as [[w|e] t'] eqn:V end; [|discriminate H].
      exists w. split; [destruct (split_fields _ _ _); injection H as <- _ _; reflexivity|]. right; left. do 3 eexists.
      split; [exact ND|]. split; [reflexivity|]. split; [reflexivity|]. split; [|exact V]. reflexivity.
    + exists value. split; [destruct (split_fields _ _ _); injection H as <- _ _; reflexivity|]. right; right. auto.
Qed.

Lemma model_assign_ok : forall c root m n value s m' s',
  instance_of c m -> model_assign false false root (model_fields_assign c) m n value s = (VOk tt, m', s') ->
  exists w, assignable c m n value w /\
    (forall k, attr m' k = if str_eqb k n then Some w else attr m k) /\
    (forall k, is_set m' k <-> is_set m k \/ k = n) /\ instance_of c m'.
Proof.
  intros c root m n value s m' s' HI H. pose proof (merged_spec c m HI) as [KM GM].
  unfold model_assign in H. fold (merged m) in H.
  destruct (model_fields_assign c (dict_set (PStr n) value (merged m)) n value s) as [[[out|e] d'] s1] eqn:A; [|discriminate H].
  apply fields_assign_ok in A. destruct A as (w & EO & AW). exists w.
  set (d0 := dict_set (PStr n) value (merged m)) in *.
  assert (K0 : keyed d0) by (apply keyed_set; exact KM).
  assert (OT : forall k, dict_get (PStr k) (dict_del (PStr n) d0) = if str_eqb k n then None else attr m k).
  { intro k. rewrite dict_get_del by exact K0. destruct (str_eqb k n) eqn:E; [reflexivity|]. unfold d0. rewrite dict_get_set, E by exact KM. apply GM. }
  assert (AS : assignable c m n value w).
  { destruct AW as [(f & t & t' & I & E & FR & D & FN & V)|[(v & t & t' & ND & EX & EV & D & V)|(ND & EX & EV & ->)]].
    - eapply as_field; eauto. exists (dict_del (PStr n) d0). auto.
    - eapply as_extra; eauto. exists (dict_del (PStr n) d0). auto.
    - apply as_raw; assumption. }
  assert (G1 : forall k, dict_get (PStr k) (dict_set (PStr n) w d0) = if str_eqb k n then Some w else attr m k).
  { intro k. rewrite dict_get_set by exact K0. destruct (str_eqb k n) eqn:E; [reflexivity|]. unfold d0. rewrite dict_get_set, E by exact KM. apply GM. }
  assert (K1 : keyed (dict_set (PStr n) w d0)) by (apply keyed_set; exact K0).
  destruct HI as (KD & (l & HS & HL) & HX).
  assert (SA : forall d e, (forall k, attr {| mi_dict := d; mi_extra := e; mi_set := Some (PSet (set_add (PStr n) l)) |} k = if str_eqb k n then Some w else attr m k) ->
     keyed d -> (match fc_extra c with ExtraAllow => exists e0, e = PDict e0 /\ keyed e0 /\ (forall n0, has_key n0 e0 -> ~ declared c n0) /\ (forall n0, has_key n0 d -> declared c n0) | _ => e = PNone end) ->
     extract_output out = Some (d, e, [PStr n]) ->
     assignable c m n value w /\ (forall k, attr m' k = if str_eqb k n then Some w else attr m k) /\ (forall k, is_set m' k <-> is_set m k \/ k = n) /\ instance_of c m').
  { intros d e GA KK XX EE. rewrite EE, HS in H. cbn [as_set fold_left] in H. injection H as <- <-. destruct (set_add_strs l n HL) as [S1 S2].
    split; [exact AS|]. split; [exact GA|]. split.
    - intro k. unfold is_set. cbn [mi_set]. rewrite HS. split.
      + intros (l' & E & I). injection E as <-. apply S2 in I. destruct I as [I|I]; [left; eauto|auto].
      + intros [(l' & E & I)|I]; [injection E as <-|]; eexists; (split; [reflexivity|]); apply S2; auto.
    - split; [exact KK|]. split; [|exact XX]. eexists. split; [reflexivity|exact S1]. }
  destruct (fc_extra c) eqn:EX.
  - destruct (split_fields (fc_fields c) (dict_set (PStr n) w d0) []) as [rest fields] eqn:SF. subst out.
    destruct (split_fields_spec _ _ _ _ _ K1 keyed_nil SF) as (KR & KF & GR & GF).
    apply (SA fields (PDict rest)); [|exact KF| |reflexivity].
    + intro k. unfold attr at 1. cbn [mi_dict mi_extra]. rewrite GF, GR, G1. cbn [dict_get]. destruct (named (fc_fields c) k); [|reflexivity].
      destruct (if str_eqb k n then Some w else attr m k); reflexivity.
    + exists rest. split; [reflexivity|]. split; [exact KR|]. split.
      * intros k (v & G) DC. apply named_declared in DC. rewrite GR, DC in G. discriminate G.
      * intros k (v & G). apply named_declared. rewrite GF in G. destruct (named (fc_fields c) k); [reflexivity|discriminate G].
  - subst out. apply (SA (dict_set (PStr n) w d0) PNone); [|exact K1|reflexivity|reflexivity].
    intro k. unfold attr at 1. cbn [mi_dict mi_extra]. rewrite G1. destruct (if str_eqb k n then Some w else attr m k); reflexivity.
  - subst out. apply (SA (dict_set (PStr n) w d0) PNone); [|exact K1|reflexivity|reflexivity].
    intro k. unfold attr at 1. cbn [mi_dict mi_extra]. rewrite G1. destruct (if str_eqb k n then Some w else attr m k); reflexivity.
Qed.

(** * Dataclasses *)
Lemma to_dict_spec ca fields o : forall d0 d, keyed d0 -> dataclass_to_dict ca fields o d0 = Some d ->
  keyed d /\ forall n, dict_get (PStr n) d = if mem_str n fields then dc_getattr ca o n else dict_get (PStr n) d0.
Proof.
  induction fields as [|f fs IH]; intros d0 d K H; cbn [dataclass_to_dict] in H.
  - injection H as <-. auto.
  - destruct (dc_getattr ca o f) as [v|] eqn:G; [|discriminate H]. destruct (IH _ _ (keyed_set f v d0 K) H) as [K1 G1]. split; [exact K1|].
    intro n. rewrite G1, dict_get_set by exact K. unfold mem_str. cbn [existsb].
    destruct (str_eqb n f) eqn:E; [apply str_eqb_eq in E; subst n; rewrite G|]; cbn [orb]; [destruct (existsb _ fs); reflexivity|reflexivity].
Qed.
