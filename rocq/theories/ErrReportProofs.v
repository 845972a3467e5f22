(** Proofs about error messages and reports. *)
From Coq Require Import List NArith ZArith Bool Lia.
From Verif Require Import Base Float64 Values Decimal VState ErrTable ErrReport ErrReportSpec.
Import ListNotations.
Open Scope Z_scope.

(** * Replacement *)
Lemma starts_app p s : starts p (p ++ s) = true.
Proof. induction p as [|a p IH]; [reflexivity|]. cbn [starts app]. rewrite N.eqb_refl. exact IH. Qed.

Lemma replace_skip p v n s t : length s = n -> replace_from p v n (s ++ t) = replace_from p v 0%nat t.
Proof.
  revert s. induction n as [|n IH]; intros [|c s] L; try discriminate; [reflexivity|].
  cbn [app replace_from]. apply IH. injection L as L. exact L.
Qed.

Lemma replace_plain k v s t : no_open s -> replace (hole k) v (s ++ t) = s ++ replace (hole k) v t.
Proof.
  unfold replace. induction s as [|c s IH]; intro P; [reflexivity|].
  cbn [app replace_from hole starts].
  destruct (N.eqb_spec 123 c) as [E|E]; [exfalso; apply P; left; symmetry; exact E|].
  cbn [andb]. f_equal. apply IH. intro I. apply P. right. exact I.
Qed.

Lemma replace_hit k v t : replace (hole k) v (hole k ++ t) = v ++ replace (hole k) v t.
Proof.
  unfold replace. pose proof (starts_app (hole k) t) as H.
  change (hole k ++ t) with (123%N :: (k ++ [125%N]) ++ t) in *.
  cbn [replace_from]. rewrite H. f_equal.
  apply replace_skip. cbn [hole length]. lia.
Qed.

Lemma starts_other k k' t : no_brace k -> no_brace k' -> k <> k' -> starts (k ++ [125%N]) (k' ++ 125%N :: t) = false.
Proof.
  revert k'. induction k as [|a k IH]; intros [|b k'] [O C] [O' C'] D.
  - contradiction D. reflexivity.
  - cbn [app starts]. destruct (N.eqb_spec 125 b) as [E|E]; [exfalso; apply C'; left; symmetry; exact E|reflexivity].
  - cbn [app starts]. destruct (N.eqb_spec a 125) as [E|E]; [exfalso; apply C; left; exact E|reflexivity].
  - cbn [app starts]. destruct (N.eqb_spec a b) as [E|E]; [|reflexivity]. cbn [andb]. subst b. apply IH.
    + split; intro I; [apply O|apply C]; right; exact I.
    + split; intro I; [apply O'|apply C']; right; exact I.
    + intros ->. apply D. reflexivity.
Qed.

Lemma replace_miss k k' v t : no_brace k -> no_brace k' -> k <> k' -> replace (hole k) v (hole k' ++ t) = hole k' ++ replace (hole k) v t.
Proof.
  intros N1 N2 D. unfold replace.
  change (hole k' ++ t) with (123%N :: (k' ++ [125%N]) ++ t). rewrite <- app_assoc. cbn [app].
  cbn [replace_from hole starts]. rewrite starts_other by assumption. rewrite andb_false_r.
  change (hole k' ++ replace_from (hole k) v 0 t) with (123%N :: (k' ++ [125%N]) ++ replace_from (hole k) v 0 t).
  apply (f_equal (cons 123%N)). pose proof (replace_plain k v (k' ++ [125%N]) t) as H. unfold replace in H.
  rewrite <- app_assoc in H. cbn [app] in H. apply H.
  intro I. apply in_app_or in I. destruct I as [I|[I|[]]]; [|discriminate]. destruct N2 as [O _]. exact (O I).
Qed.

Definition good (p : piece) : Prop := match p with Text s => no_open s | Hole k => no_brace k end.

(** One placeholder of a template. *)
Definition put1 (k v : str) (p : piece) : piece :=
  match p with Hole k' => if str_eqb k k' then Text v else p | Text _ => p end.

Lemma str_eqb_dec a b : {a = b /\ str_eqb a b = true} + {a <> b /\ str_eqb a b = false}.
Proof.
  destruct (str_eqb a b) eqn:E; [left; split; [apply str_eqb_eq; exact E|reflexivity]|right; split; [|reflexivity]].
  intros ->. rewrite str_eqb_refl in E. discriminate.
Qed.

Lemma replace_pieces k v ps : no_brace k -> Forall good ps -> replace (hole k) v (template_text ps) = template_text (map (put1 k v) ps).
Proof.
  intros K G. induction G as [|p ps Gp Gps IH]; [reflexivity|].
  unfold template_text in *. cbn [map concat]. destruct p as [s|k']; cbn [piece_text put1 good] in *.
  - rewrite replace_plain by exact Gp. rewrite IH. reflexivity.
  - change (lit "{" ++ k' ++ lit "}") with (hole k').
    destruct (str_eqb_dec k k') as [[E B]|[E B]]; rewrite B.
    + subst k'. rewrite replace_hit, IH. reflexivity.
    + rewrite replace_miss by assumption. rewrite IH. reflexivity.
Qed.

Lemma put1_good k v ps : no_open v -> Forall good ps -> Forall good (map (put1 k v) ps).
Proof.
  intros P G. induction G as [|p ps Gp Gps IH]; constructor; [|exact IH].
  destruct p as [s|k']; [exact Gp|]. cbn [put1]. destruct (str_eqb k k'); [exact P|exact Gp].
Qed.

Definition replace_all (kvs : list (str * str)) (m : str) : str :=
  fold_left (fun m kv => replace (hole (fst kv)) (snd kv) m) kvs m.

Lemma filled_put1 k v kvs ps : filled kvs (map (put1 k v) ps) = filled ((k, v) :: kvs) ps.
Proof.
  unfold filled. induction ps as [|p ps IH]; [reflexivity|]. cbn [map concat]. rewrite IH. f_equal.
  destruct p as [s|k']; [reflexivity|]. cbn [put1 value_of]. destruct (str_eqb k k'); reflexivity.
Qed.

Lemma filled_nil ps : filled [] ps = template_text ps.
Proof. unfold filled, template_text. f_equal. apply map_ext. intros [s|k]; reflexivity. Qed.

Lemma replace_all_filled kvs ps :
  Forall (fun kv => no_brace (fst kv)) kvs -> tame (map snd kvs) -> Forall good ps ->
  replace_all kvs (template_text ps) = filled kvs ps.
Proof.
  revert ps. induction kvs as [|[k v] kvs IH]; intros ps K T G.
  - symmetry. apply filled_nil.
  - inversion K as [|? ? K1 K2]; subst. cbn [fst] in K1.
    unfold replace_all. cbn [fold_left fst snd]. rewrite replace_pieces by assumption.
    destruct kvs as [|kv kvs].
    + cbn [fold_left]. rewrite <- filled_nil. apply filled_put1.
    + assert (Tv : no_open v /\ tame (map snd (kv :: kvs))).
      { unfold tame in T. cbn [map snd removelast] in T. inversion T as [|? ? T1 T2]; subst. split; [exact T1|exact T2]. }
      destruct Tv as [Tv Tr]. fold (replace_all (kv :: kvs) (template_text (map (put1 k v) ps))).
      rewrite IH; [apply filled_put1|exact K2|exact Tr|apply put1_good; assumption].
Qed.

(** * The table *)
Fixpoint parse (acc : str) (s : str) (inside : bool) : list piece :=
  match s with
  | [] => match acc with [] => [] | _ => [Text (rev acc)] end
  | c :: s' =>
      if inside then if N.eqb c 125 then Hole (rev acc) :: parse [] s' false else parse (c :: acc) s' true
      else if N.eqb c 123 then Text (rev acc) :: parse [] s' true else parse (c :: acc) s' false
  end.
Definition has (c : N) (s : str) : bool := existsb (N.eqb c) s.
Lemma has_no c s : has c s = false -> ~ In c s.
Proof.
  unfold has. intros H I. assert (existsb (N.eqb c) s = true); [|congruence].
  apply existsb_exists. exists c. split; [exact I|apply N.eqb_refl].
Qed.
Definition piece_ok (keys : list str) (p : piece) : bool :=
  match p with
  | Text s => negb (has 123 s)
  | Hole k => negb (has 123 k) && negb (has 125 k) && existsb (str_eqb k) keys
  end.
Definition template_ok (keys : list str) (t : str) : bool :=
  let ps := parse [] t false in
  str_eqb (template_text ps) t && forallb (piece_ok keys) ps.
Fixpoint nodup_str (l : list str) : bool :=
  match l with [] => true | x :: l' => negb (existsb (str_eqb x) l') && nodup_str l' end.
Definition num_ty (t : ctx_ty) : bool := match t with TUsize | TU64 => true | _ => false end.
Definition key_ok (r : row) (k : str) : bool :=
  negb (has 123 k) && negb (has 125 k) &&
  if str_eqb k (lit "expected_plural") then
    match r_plural r with
    | Some k' => existsb (fun kt => str_eqb (fst kt) k' && num_ty (snd kt)) (r_fields r)
    | None => false
    end
  else existsb (fun kt => str_eqb (fst kt) k) (r_fields r).
Definition row_ok (r : row) : bool :=
  template_ok (r_render r) (r_py r) && template_ok (r_render r) (r_json r)
  && forallb (key_ok r) (r_render r) && nodup_str (map fst (r_fields r)).
Lemma table_ok : forallb row_ok table = true.
Proof. vm_compute. reflexivity. Qed.
Lemma types_distinct : nodup_str (map row_type table) = true.
Proof. vm_compute. reflexivity. Qed.

Lemma nodup_str_NoDup l : nodup_str l = true -> NoDup l.
Proof.
  induction l as [|x l IH]; intro H; [constructor|]. cbn [nodup_str] in H. apply andb_prop in H. destruct H as [A B].
  constructor; [|apply IH; exact B]. intro I. apply negb_true_iff in A.
  assert (existsb (str_eqb x) l = true); [|congruence]. apply existsb_exists. exists x. split; [exact I|apply str_eqb_refl].
Qed.

Lemma row_ok_in r : In r table -> row_ok r = true.
Proof. intro I. pose proof table_ok as T. rewrite forallb_forall in T. apply T. exact I. Qed.
Lemma row_fields_nodup r : In r table -> NoDup (map fst (r_fields r)).
Proof. intro I. pose proof (row_ok_in r I) as H. unfold row_ok in H. apply andb_prop in H. apply nodup_str_NoDup. exact (proj2 H). Qed.

Lemma find_unique {A} (g : A -> str) l a : NoDup (map g l) -> In a l -> find (fun x => str_eqb (g x) (g a)) l = Some a.
Proof.
  induction l as [|x l IH]; intros N I; [destruct I|]. cbn [map] in N. inversion N as [|? ? N1 N2]; subst.
  cbn [find]. destruct (str_eqb_dec (g x) (g a)) as [[E B]|[E B]]; rewrite B.
  - destruct I as [->|I]; [reflexivity|]. exfalso. apply N1. rewrite E. apply in_map. exact I.
  - destruct I as [->|I]; [contradiction E; reflexivity|]. apply IH; assumption.
Qed.
Lemma lookup_row r : In r table -> lookup (row_type r) = Some r.
Proof. intro I. unfold lookup. apply (find_unique row_type); [apply nodup_str_NoDup, types_distinct|exact I]. Qed.
Lemma lookup_some t r : lookup t = Some r -> In r table /\ row_type r = t.
Proof. unfold lookup. intro H. apply find_some in H. destruct H as [I E]. split; [exact I|apply str_eqb_eq; exact E]. Qed.
