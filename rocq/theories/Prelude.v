(** Shared vocabulary of the model: outcomes, strings, hash maps, list helpers.
    Nothing here is specific to quarchitect; it fixes how Rust's [Result], panics,
    [String], [HashMap] and iterator adaptors are represented. *)
From Coq Require Export List NArith ZArith Bool Lia.
From Coq Require Ascii String.
Export ListNotations.
Export String.StringSyntax.

(** ** Outcomes.
    [Ok]/[Err] are Rust's [Result]; [Panic] is an unwinding panic (unwrap on [None],
    out-of-range index or slice, failed assert, checked arithmetic overflow);
    [OutOfFuel] is answered only by functions that take explicit fuel, when it is
    exhausted: a computation that is [OutOfFuel] for every fuel does not terminate. *)
Inductive res (A : Type) : Type :=
| Ok (a : A)
| Err (e : list N)
| Panic (why : list N)
| OutOfFuel.
Arguments Ok {A} a.
Arguments Err {A} e.
Arguments Panic {A} why.
Arguments OutOfFuel {A}.

Definition bind {A B : Type} (r : res A) (f : A -> res B) : res B :=
  match r with
  | Ok a => f a
  | Err e => Err e
  | Panic w => Panic w
  | OutOfFuel => OutOfFuel
  end.

Declare Scope res_scope.
Delimit Scope res_scope with res.
Notation "x <- r ;; k" := (bind r (fun x => k))
  (at level 61, r at next level, right associativity) : res_scope.
Notation "' p <- r ;; k" := (bind r (fun p => k))
  (at level 61, p pattern, r at next level, right associativity) : res_scope.
Open Scope res_scope.

Definition is_ok {A} (r : res A) : bool := match r with Ok _ => true | _ => false end.
Definition is_err {A} (r : res A) : bool := match r with Err _ => true | _ => false end.
Definition is_panic {A} (r : res A) : bool := match r with Panic _ => true | _ => false end.

(** Sequential [iter().map(f).collect()] where [f] may panic: left to right, stops at the
    first element that is not [Ok]. *)
Fixpoint mapM {A B : Type} (f : A -> res B) (l : list A) : res (list B) :=
  match l with
  | [] => Ok []
  | x :: t => y <- f x ;; ys <- mapM f t ;; Ok (y :: ys)
  end.

(** [Option::unwrap] *)
Definition unwrap {A} (why : list N) (o : option A) : res A :=
  match o with Some a => Ok a | None => Panic why end.

(** ** Strings: lists of Unicode scalar values. *)
Definition str := list N.

(** String literal of ASCII characters. *)
Definition lit (s : String.string) : str :=
  map Ascii.N_of_ascii (String.list_ascii_of_string s).
Arguments lit s%string_scope.

Fixpoint str_eqb (a b : str) : bool :=
  match a, b with
  | [], [] => true
  | x :: a', y :: b' => N.eqb x y && str_eqb a' b'
  | _, _ => false
  end.

Definition opt_str_eqb (a b : option str) : bool :=
  match a, b with
  | None, None => true
  | Some x, Some y => str_eqb x y
  | _, _ => false
  end.

(** ** HashMap with string keys, as an association list with replace-on-insert.
    The order of the list is not meaningful: code under test that only calls [get],
    [contains_key] and [insert] cannot observe it; the single place that iterates a map
    ([scene_tree::run] over the worldspawn layers) takes the iteration order as a parameter. *)
Definition hmap (V : Type) := list (str * V).

Fixpoint hget {V} (m : hmap V) (k : str) : option V :=
  match m with
  | [] => None
  | (k', v) :: t => if str_eqb k k' then Some v else hget t k
  end.

Fixpoint hput {V} (m : hmap V) (k : str) (v : V) : hmap V :=
  match m with
  | [] => [(k, v)]
  | (k', v') :: t => if str_eqb k k' then (k', v) :: t else (k', v') :: hput t k v
  end.

(** ** Iterator adaptors used by the code. *)

(** [iter().position(p)] *)
Fixpoint position {A} (p : A -> bool) (l : list A) : option nat :=
  match l with
  | [] => None
  | x :: t => if p x then Some 0%nat else option_map S (position p t)
  end.

(** [iter().enumerate()] starting at [i] *)
Fixpoint enumerate_from {A} (i : nat) (l : list A) : list (nat * A) :=
  match l with
  | [] => []
  | x :: t => (i, x) :: enumerate_from (S i) t
  end.
Definition enumerate {A} (l : list A) := enumerate_from 0 l.

(** [flat_map] of a closure returning [Option] *)
Fixpoint filter_map {A B} (f : A -> option B) (l : list A) : list B :=
  match l with
  | [] => []
  | x :: t => match f x with Some y => y :: filter_map f t | None => filter_map f t end
  end.

(** [iter().collect::<Option<Vec<_>>>()]: [None] if any element is [None] *)
Fixpoint sequence {A} (l : list (option A)) : option (list A) :=
  match l with
  | [] => Some []
  | None :: _ => None
  | Some x :: t => match sequence t with Some xs => Some (x :: xs) | None => None end
  end.

(** [l\[i\] = v]; [None] when out of range *)
Fixpoint set_nth {A} (i : nat) (v : A) (l : list A) : option (list A) :=
  match l, i with
  | [], _ => None
  | _ :: t, O => Some (v :: t)
  | x :: t, S i' => option_map (cons x) (set_nth i' v t)
  end.

(** [l.last_mut().unwrap()] followed by an in-place update; [None] when empty *)
Fixpoint upd_last {A} (f : A -> A) (l : list A) : option (list A) :=
  match l with
  | [] => None
  | [x] => Some [f x]
  | x :: t => option_map (cons x) (upd_last f t)
  end.

(** Stable sort by a three-way comparison ([slice::sort_by]).  Insertion sort: for a comparison
    that is a total preorder the stable sorted permutation is unique, so the algorithm does not
    matter; for other comparisons Rust's result is unspecified (this is one possibility). *)
Fixpoint sort_insert {A} (cmp : A -> A -> comparison) (x : A) (l : list A) : list A :=
  match l with
  | [] => [x]
  | y :: t => match cmp y x with Gt => x :: l | _ => y :: sort_insert cmp x t end
  end.
Definition sort_by {A} (cmp : A -> A -> comparison) (l : list A) : list A :=
  fold_left (fun acc x => sort_insert cmp x acc) l [].
