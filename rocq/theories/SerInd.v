(** Induction over serializer trees, and the loops of the serializers as relations. *)
From Coq Require Import List NArith ZArith Bool.
From Verif Require Import Base Float64 Utf8 Decimal Values BytesCodec Filter LookupKey Classes JsonText SerBase Ser.
Import ListNotations.
Open Scope nat_scope.

Definition on_opt {A} (P : A -> Prop) (o : option A) : Prop := match o with Some a => P a | None => True end.

Section Ind.
Variable P : ser -> Prop.
Hypothesis HAny : P SerAny.
Hypothesis HNone : P SerNone.
Hypothesis HInt : P SerInt.
Hypothesis HBool : P SerBool.
Hypothesis HFloat : forall m, P (SerFloat m).
Hypothesis HStr : P SerStr.
Hypothesis HBytes : forall m, P (SerBytes m).
Hypothesis HNullable : forall s, P s -> P (SerNullable s).
Hypothesis HDefault : forall d s, P s -> P (SerDefault d s).
Hypothesis HList : forall f s, P s -> P (SerList f s).
Hypothesis HSet : forall s, P s -> P (SerSet s).
Hypothesis HFrozenSet : forall s, P s -> P (SerFrozenSet s).
Hypothesis HTuple : forall f l v, Forall P l -> P (SerTuple f l v).
Hypothesis HDict : forall f k v, P k -> P v -> P (SerDict f k v).
Hypothesis HFields : forall m fs ex c,
  Forall (fun kf => on_opt P (f_ser (snd kf))) fs -> on_opt P ex -> Forall (fun c => P (cf_ser c)) c -> P (SerFields m fs ex c).
Hypothesis HModel : forall cls s e r, P s -> P (SerModel cls s e r).
Hypothesis HDataclass : forall cls s n, P s -> P (SerDataclass cls s n).
Hypothesis HUnion : forall l, Forall P l -> P (SerUnion l).
Hypothesis HTagged : forall d t l, Forall P l -> P (SerTagged d t l).
Hypothesis HLiteral : forall l, P (SerLiteral l).
Hypothesis HEnum : forall c o, on_opt P o -> P (SerEnum c o).
Hypothesis HToString : forall w, P (SerToString w).
Hypothesis HJsonOrPython : forall j p, P j -> P p -> P (SerJsonOrPython j p).
Hypothesis HJson : forall s, P s -> P (SerJson s).
Hypothesis HDef : forall k r, P (SerDef k r).
Hypothesis HFunction : forall w i f r fb, P r -> on_opt P fb -> P (SerFunction w i f r fb).

Fixpoint ser_ind' (s : ser) : P s :=
  let list_ := fix list_ (l : list ser) : Forall P l :=
    match l with [] => Forall_nil _ | s :: l' => Forall_cons _ (ser_ind' s) (list_ l') end in
  match s with
  | SerAny => HAny
  | SerNone => HNone
  | SerInt => HInt
  | SerBool => HBool
  | SerFloat m => HFloat m
  | SerStr => HStr
  | SerBytes m => HBytes m
  | SerNullable s => HNullable s (ser_ind' s)
  | SerDefault d s => HDefault d s (ser_ind' s)
  | SerList f s => HList f s (ser_ind' s)
  | SerSet s => HSet s (ser_ind' s)
  | SerFrozenSet s => HFrozenSet s (ser_ind' s)
  | SerTuple f l v => HTuple f l v (list_ l)
  | SerDict f k v => HDict f k v (ser_ind' k) (ser_ind' v)
  | SerFields m fs ex c =>
      HFields m fs ex c
        ((fix go (l : list (str * field ser)) : Forall (fun kf => on_opt P (f_ser (snd kf))) l :=
            match l with
            | [] => Forall_nil _
            | kf :: l' =>
                Forall_cons kf
                  (match f_ser (snd kf) as o return on_opt P o with Some s => ser_ind' s | None => I end) (go l')
            end) fs)
        (match ex as o return on_opt P o with Some s => ser_ind' s | None => I end)
        ((fix go (l : list (computed ser)) : Forall (fun c => P (cf_ser c)) l :=
            match l with [] => Forall_nil _ | c :: l' => Forall_cons c (ser_ind' (cf_ser c)) (go l') end) c)
  | SerModel cls s e r => HModel cls s e r (ser_ind' s)
  | SerDataclass cls s n => HDataclass cls s n (ser_ind' s)
  | SerUnion l => HUnion l (list_ l)
  | SerTagged d t l => HTagged d t l (list_ l)
  | SerLiteral l => HLiteral l
  | SerEnum c o => HEnum c o (match o as o return on_opt P o with Some s => ser_ind' s | None => I end)
  | SerToString w => HToString w
  | SerJsonOrPython j p => HJsonOrPython j p (ser_ind' j) (ser_ind' p)
  | SerJson s => HJson s (ser_ind' s)
  | SerDef k r => HDef k r
  | SerFunction w i f r fb => HFunction w i f r fb (ser_ind' r) (match fb as o return on_opt P o with Some s => ser_ind' s | None => I end)
  end.
End Ind.

Lemma Forall_firstn {A} (P : A -> Prop) n l : Forall P l -> Forall P (firstn n l).
Proof. intros H. revert n. induction H; intros [|n]; cbn; auto. Qed.
Lemma Forall_skipn {A} (P : A -> Prop) n l : Forall P l -> Forall P (skipn n l).
Proof. intros H. revert n. induction H; intros [|n]; cbn; auto. Qed.
Lemma Forall_map_in {A B} (f : A -> B) (P : B -> Prop) l : Forall (fun a => P (f a)) l -> Forall P (map f l).
Proof. induction 1; cbn; constructor; auto. Qed.
