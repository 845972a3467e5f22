(** Model of src/recursion_guard.rs. *)
From Coq Require Import List NArith Bool.
From Verif Require Import Base.
Import ListNotations.

(** recursion_guard.rs:4-11 [RecursionKey]: (object id, node id). *)
Definition key := (N * N)%type.

Definition key_eqb (a b : key) : bool := N.eqb (fst a) (fst b) && N.eqb (snd a) (snd b).

Definition mem (v : key) (l : list key) : bool := existsb (key_eqb v) l.

(** recursion_guard.rs:133-143 [RecursionStack].  The array is represented by
    its initialised prefix ([len] = length of the list, index 0 first); the hash
    set by a list whose order is never observed. *)
Inductive stack :=
| SArray (data : list key)
| SSet (s : list key).

(** recursion_guard.rs:134 [ARRAY_SIZE]. *)
Definition ARRAY_SIZE : nat := 16.

(** [AHashSet::insert]: true iff the value was absent. *)
Definition set_insert (v : key) (s : list key) : bool * list key :=
  if mem v s then (false, s) else (true, v :: s).

(** [AHashSet::remove]. *)
Definition set_remove (v : key) (s : list key) : list key :=
  filter (fun x => negb (key_eqb v x)) s.

(** recursion_guard.rs:158-187 [RecursionStack::insert]. *)
Definition stack_insert (v : key) (st : stack) : bool * stack :=
  match st with
  | SArray data =>
      if Nat.ltb (length data) ARRAY_SIZE then
        if existsb (fun x => key_eqb x v) data then (false, SArray data)
        else (true, SArray (data ++ [v]))
      else
        let s := fold_left (fun s x => snd (set_insert x s)) data [] in
        let '(inserted, s') := set_insert v s in
        (inserted, SSet s')
  | SSet s => let '(inserted, s') := set_insert v s in (inserted, SSet s')
  end.

(** recursion_guard.rs:189-203 [RecursionStack::remove].  [None] is a panic
    ("remove from empty recursion guard" or "remove did not match insert"). *)
Definition stack_remove (v : key) (st : stack) : option stack :=
  match st with
  | SArray data =>
      match rev data with
      | [] => None
      | x :: front => if key_eqb x v then Some (SArray (rev front)) else None
      end
  | SSet s => Some (SSet (set_remove v s))
  end.

(** recursion_guard.rs:66-72 [RecursionState]. *)
Record rstate := { ids : stack; depth : N }.

(** recursion_guard.rs:145-152 [Default]. *)
Definition rstate_default : rstate := {| ids := SArray []; depth := 0 |}.

(** The two compilations of [incr_depth] (recursion_guard.rs:96-121): the
    release build on ordinary platforms, and the debug/wasm/windows/PyPy build
    with its [RECURSION_GUARD_LIMIT] (78-86), which is 235, 79, 29, 99 or 49. *)
Inductive build := Release | Restricted (limit : N).

(** recursion_guard.rs:96-121 [incr_depth]; [u8] arithmetic. *)
Definition incr_depth (b : build) (d : N) : bool * N :=
  match b with
  | Release => if N.ltb d 255 then (false, N.succ d) else (true, d)
  | Restricted limit =>
      let d' := N.min (N.succ d) 255 in (N.ltb limit d', d')
  end.

(** recursion_guard.rs:123-126 [decr_depth] ([saturating_sub]). *)
Definition decr_depth (d : N) : N := N.pred d.

(** recursion_guard.rs:21-26 [RecursionError], and the new guard state. *)
Inductive guard_result :=
| GOk (st : rstate)
| GCyclic (st : rstate)
| GDepth (st : rstate).

(** recursion_guard.rs:32-43 [RecursionGuard::new].  On [Depth] the inserted
    pair stays behind, exactly as in the code. *)
Definition guard_new (b : build) (k : key) (st : rstate) : guard_result :=
  let '(inserted, ids') := stack_insert k (ids st) in
  if inserted then
    let '(over, d') := incr_depth b (depth st) in
    let st' := {| ids := ids'; depth := d' |} in
    if over then GDepth st' else GOk st'
  else GCyclic {| ids := ids'; depth := depth st |}.

(** recursion_guard.rs:51-58 [Drop]; [None] is a panic. *)
Definition guard_drop (k : key) (st : rstate) : option rstate :=
  match stack_remove k (ids st) with
  | None => None
  | Some ids' => Some {| ids := ids'; depth := decr_depth (depth st) |}
  end.

(** A call tree: each node tries to enter a pair; its sub-calls run only while
    the guard is held (definitions.rs:81-92, extra.rs:186-200). *)
Inductive scope := Scope (k : key) (children : list scope).

(** What the caller of each [RecursionGuard::new] observes. *)
Inductive verdict := VEntered (children : list verdict) | VCyclic | VDepth.

(** The use made of the guard by its callers: enter, run the sub-calls, drop.
    [None] is a panic. *)
Fixpoint run (b : build) (sc : scope) (st : rstate) : option (verdict * rstate) :=
  match sc with
  | Scope k children =>
      match guard_new b k st with
      | GCyclic st' => Some (VCyclic, st')
      | GDepth st' => Some (VDepth, st')
      | GOk st1 =>
          let fix go (l : list scope) (st : rstate) : option (list verdict * rstate) :=
            match l with
            | [] => Some ([], st)
            | c :: l' =>
                match run b c st with
                | None => None
                | Some (v, st') =>
                    match go l' st' with
                    | None => None
                    | Some (vs, st'') => Some (v :: vs, st'')
                    end
                end
            end in
          match go children st1 with
          | None => None
          | Some (vs, st2) =>
              match guard_drop k st2 with
              | None => None
              | Some st3 => Some (VEntered vs, st3)
              end
          end
      end
  end.

(** The guarded traversal of a graph: [succ k] lists the guarded sub-nodes
    (object, definition) that validating or serializing node [k] visits, in
    order.  This is validators/definitions.rs:71-93 with the non-reference
    validators between two references collapsed into [succ].
    [None] means out of fuel or panic. *)
Fixpoint walk (b : build) (succ : key -> list key) (fuel : nat) (k : key) (st : rstate)
  : option (verdict * rstate) :=
  match fuel with
  | O => None
  | S fuel' =>
      match guard_new b k st with
      | GCyclic st' => Some (VCyclic, st')
      | GDepth st' => Some (VDepth, st')
      | GOk st1 =>
          let fix go (l : list key) (st : rstate) : option (list verdict * rstate) :=
            match l with
            | [] => Some ([], st)
            | c :: l' =>
                match walk b succ fuel' c st with
                | None => None
                | Some (v, st') =>
                    match go l' st' with
                    | None => None
                    | Some (vs, st'') => Some (v :: vs, st'')
                    end
                end
            end in
          match go (succ k) st1 with
          | None => None
          | Some (vs, st2) =>
              match guard_drop k st2 with
              | None => None
              | Some st3 => Some (VEntered vs, st3)
              end
          end
      end
  end.
