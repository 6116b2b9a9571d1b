(** Basic outcome types shared by the whole model.

    Rust functions either return normally, return an error value, or panic.
    A normal return is the plain Coq value, [Result<T, E>] is [result], and a
    panic ([unwrap], [expect], [unreachable!], failed [assert!]) is the
    [Panic] constructor of [outcome].  Nothing here models a particular line
    of /repo. *)

From Coq Require Import List Bool Arith ZArith Lia.
Import ListNotations.

(** [std::result::Result], used throughout /repo. *)
Inductive result (A E : Type) : Type :=
| Ok (a : A)
| Err (e : E).
Arguments Ok {A E} a.
Arguments Err {A E} e.

(** A Rust computation that may panic: no line of /repo, see above. *)
Inductive outcome (A : Type) : Type :=
| Done (a : A)
| Panic.
Arguments Done {A} a.
Arguments Panic {A}.

(** Evaluate, then go on unless it panicked (sequencing in Rust).
    Not one place in /repo: every statement after a call that may panic, e.g. cube_n/invariants.rs:43-51. *)
Definition bind_o {A B} (x : outcome A) (f : A -> outcome B) : outcome B :=
  match x with Done a => f a | Panic => Panic end.

(** Evaluate, then apply a function that cannot panic. E.g. cube_n/cube3/heuristics/mus.rs:4-10. *)
Definition map_o {A B} (f : A -> B) (x : outcome A) : outcome B :=
  match x with Done a => Done (f a) | Panic => Panic end.

(** The [?] operator on [Result]. E.g. cube_n/parser/mod.rs:70-71. *)
Definition bind_r {A B E} (x : result A E) (f : A -> result B E) : result B E :=
  match x with Ok a => f a | Err e => Err e end.

(** [Iterator::find] on a list. *)
Fixpoint find_first {A} (p : A -> bool) (l : list A) : option A :=
  match l with
  | [] => None
  | a :: r => if p a then Some a else find_first p r
  end.

(** [Iterator::position] on a list. *)
Fixpoint find_index {A} (p : A -> bool) (l : list A) : option nat :=
  match l with
  | [] => None
  | a :: r => if p a then Some 0 else option_map S (find_index p r)
  end.

(** Replace the element at an index (array assignment [a[i] = x]); writing
    outside the array leaves it unchanged (callers handle the panic). E.g. cube_n/invariants.rs:71. *)
Fixpoint set_nth {A} (l : list A) (i : nat) (x : A) : list A :=
  match l, i with
  | [], _ => []
  | _ :: r, 0 => x :: r
  | a :: r, S i' => a :: set_nth r i' x
  end.

(** [slice::swap]. std, used through generic/piece/set.rs:138-153 [swap] and by [rand] shuffling. *)
Definition swap_nth {A} (l : list A) (i j : nat) : list A :=
  match nth_error l i, nth_error l j with
  | Some a, Some b => set_nth (set_nth l i b) j a
  | _, _ => l
  end.

Lemma set_nth_length {A} (l : list A) i x : length (set_nth l i x) = length l.
Proof. revert i; induction l; destruct i; simpl; auto. Qed.

Lemma nth_error_set_nth {A} (l : list A) i j x :
  nth_error (set_nth l i x) j =
  if Nat.eqb i j then (if Nat.ltb i (length l) then Some x else None) else nth_error l j.
Proof.
  revert i j; induction l as [|a l IH]; intros [|i] [|j]; simpl; auto.
  - destruct (Nat.eqb i j); reflexivity.
  - rewrite IH. change (S i <? S (length l))%nat with (i <? length l)%nat. reflexivity.
Qed.

Lemma find_first_Some {A} (p : A -> bool) l a :
  find_first p l = Some a -> In a l /\ p a = true.
Proof.
  induction l as [|b l IH]; simpl; [discriminate|].
  destruct (p b) eqn:E; [intros [= ->]; auto|].
  intros H; apply IH in H; tauto.
Qed.

Lemma find_first_None {A} (p : A -> bool) l :
  find_first p l = None <-> forall a, In a l -> p a = false.
Proof.
  induction l as [|b l IH]; simpl.
  - split; [intros _ a []|reflexivity].
  - destruct (p b) eqn:E.
    + split; [discriminate|]. intros H. specialize (H b (or_introl eq_refl)). congruence.
    + rewrite IH. split; intros H a.
      * intros [<-|Hin]; auto.
      * intros Hin; auto.
Qed.

Lemma find_index_Some {A} (p : A -> bool) l i :
  find_index p l = Some i ->
  exists a, nth_error l i = Some a /\ p a = true /\
            forall j b, j < i -> nth_error l j = Some b -> p b = false.
Proof.
  revert i; induction l as [|b l IH]; simpl; [discriminate|].
  intros i. destruct (p b) eqn:E.
  - intros [= <-]. exists b; simpl; repeat split; auto. intros j c Hj; lia.
  - destruct (find_index p l) as [k|] eqn:Ek; simpl; [|discriminate].
    intros [= <-]. destruct (IH k eq_refl) as (a & H1 & H2 & H3).
    exists a; simpl; repeat split; auto.
    intros [|j] c Hj; simpl; [intros [= <-]; auto|].
    intros Hc; eapply H3; eauto; lia.
Qed.

Lemma find_index_None {A} (p : A -> bool) l :
  find_index p l = None <-> forall a, In a l -> p a = false.
Proof.
  induction l as [|b l IH]; simpl.
  - split; [intros _ a []|reflexivity].
  - destruct (p b) eqn:E.
    + split; [discriminate|]. intros H. specialize (H b (or_introl eq_refl)). congruence.
    + destruct (find_index p l) eqn:Ef; simpl.
      * split; [discriminate|]. intros H.
        assert (Some n = None) by (apply IH; intros a Ha; apply H; auto). discriminate.
      * split; [|reflexivity]. intros _ a [<-|Ha]; auto. apply (proj1 IH eq_refl a Ha).
Qed.
