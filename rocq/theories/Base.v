(** Result monad, loops and list access used by the whole model.
    Nothing here models a function of /repo: these are the Rust language
    features (panic, `for`, indexing) the model is written with. *)
From Coq Require Import ZArith List Bool Lia.
Import ListNotations.
Open Scope Z_scope.

(** Reasons for a Rust panic, e.g. array.rs:48 (assertion), machine_integers.rs:41 (unimplemented),
    math_util.rs:57 (explicit), seq.rs:133 (index).  [OutOfFuel] is not a panic of the code: it marks
    a [while] loop of the model that was given too little fuel. *)
Inductive panic : Type :=
| POverflow   (* arithmetic overflow / shift amount too large, debug profile *)
| PIndex      (* slice or array index out of range *)
| PAssert     (* assert!, debug_assert!, assert_eq! ... *)
| PDivZero    (* division or remainder by zero *)
| PUnimpl     (* unimplemented!() *)
| PExplicit   (* panic!(..), expect(..), unwrap *)
| OutOfFuel.

(** Result of a computation that may panic (Rust language; models the control flow at e.g. math_util.rs:57) *)
Inductive res (A : Type) : Type :=
| Ok : A -> res A
| Panic : panic -> res A.
Arguments Ok {A} _.
Arguments Panic {A} _.

(** Sequencing; a panic aborts (Rust language; e.g. the statements of seq.rs:59-63) *)
Definition bind {A B} (x : res A) (f : A -> res B) : res B :=
  match x with Ok a => f a | Panic p => Panic p end.

Declare Scope res_scope.
Delimit Scope res_scope with res.
Notation "'let*' x := a 'in' b" := (bind a (fun x => b))
  (at level 200, x name, a at level 100, b at level 200, right associativity) : res_scope.
Notation "'let*' ' x := a 'in' b" := (bind a (fun x => b))
  (at level 200, x strict pattern, a at level 100, b at level 200, right associativity) : res_scope.
Open Scope res_scope.

(** the computation panics (Rust language; e.g. math_util.rs:57) *)
Definition panics {A} (x : res A) : Prop := exists p, x = Panic p.
(** the computation returns a value (Rust language; no panic, see math_util.rs:57 for one) *)
Definition is_ok {A} (x : res A) : Prop := exists a, x = Ok a.

(** Rust [assert!]/[debug_assert!], e.g. array.rs:48,129 *)
Definition assert_ (b : bool) : res unit := if b then Ok tt else Panic PAssert.

(** [for i in start..start+count] threading a state, e.g. array.rs:50,263 *)
Fixpoint for_range {S : Type} (start count : nat) (f : nat -> S -> res S) (s : S) : res S :=
  match count with
  | O => Ok s
  | Datatypes.S c => let* s' := f start s in for_range (Datatypes.S start) c f s'
  end.

(** The same loop with a body that cannot panic, e.g. array.rs:263 *)
Fixpoint for_pure {S : Type} (start count : nat) (f : nat -> S -> S) (s : S) : S :=
  match count with
  | O => s
  | Datatypes.S c => for_pure (Datatypes.S start) c f (f start s)
  end.

(** Indexing [l[i]], e.g. seq.rs:132-134 *)
Definition idx {A} (l : list A) (i : nat) : res A :=
  match nth_error l i with Some a => Ok a | None => Panic PIndex end.

(** the list with one element replaced (Rust language: assignment to l[i], e.g. seq.rs:139-141) *)
Fixpoint set_nth {A} (l : list A) (i : nat) (v : A) : list A :=
  match l, i with
  | [], _ => []
  | _ :: t, O => v :: t
  | h :: t, Datatypes.S j => h :: set_nth t j v
  end.

(** assignment [l[i] = v], panics outside the list, e.g. seq.rs:139-141 *)
Definition upd {A} (l : list A) (i : nat) (v : A) : res (list A) :=
  if (i <? length l)%nat then Ok (set_nth l i v) else Panic PIndex.

(** [usize] subtraction: underflow panics (debug profile), e.g. seq.rs:55 *)
Definition usub (a b : nat) : res nat :=
  if (b <=? a)%nat then Ok (a - b)%nat else Panic POverflow.

(** [usize] division, e.g. spec-examples/src/aes_gcm/aes.rs:157-169 *)
Definition udiv (a b : nat) : res nat :=
  if (b =? 0)%nat then Panic PDivZero else Ok (a / b)%nat.

(** Element-wise map in the monad ([iter().map(..).collect()]), e.g. seq.rs:237 *)
Fixpoint mapM {A B} (f : A -> res B) (l : list A) : res (list B) :=
  match l with
  | [] => Ok []
  | a :: t => let* b := f a in let* bs := mapM f t in Ok (b :: bs)
  end.

(** element-wise map over two lists, stopping at the shorter one ([iter().zip(..)]),
    e.g. poly.rs:83,98 *)
Fixpoint zipM {A B C} (f : A -> B -> res C) (l : list A) (m : list B) : res (list C) :=
  match l, m with
  | a :: t, b :: u => let* c := f a b in let* cs := zipM f t u in Ok (c :: cs)
  | _, _ => Ok []
  end.

(** the same without panics, e.g. vec_integers.rs:1210 *)
Definition zip_with {A B C} (f : A -> B -> C) (l : list A) (m : list B) : list C :=
  map (fun p => f (fst p) (snd p)) (combine l m).
