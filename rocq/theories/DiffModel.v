(** Token diff.  Models diff_tokens, src/map/quake/tokenizer.rs:79-143. *)
From Verif Require Import Prelude F32 Text MapModel.

(** The table [l]: a vector of rows, tokenizer.rs:82-86. *)
Definition table := list (list nat).

Definition get2 (l : table) (x y : nat) : res nat :=
  row <- unwrap (lit "index") (nth_error l x) ;;
  unwrap (lit "index") (nth_error row y).

Definition set2 (l : table) (x y v : nat) : res table :=
  row <- unwrap (lit "index") (nth_error l x) ;;
  row' <- unwrap (lit "index") (set_nth y v row) ;;
  unwrap (lit "index") (set_nth x row' l).

(** [tokens\[i\]] *)
Definition tok (ts : list token) (i : nat) : res token := unwrap (lit "index") (nth_error ts i).

(** Body of the double loop, tokenizer.rs:90-98 *)
Definition cell (a b : list token) (l : table) (x y : nat) : res table :=
  if (x =? 0) || (y =? 0) then set2 l x y 0
  else
    ta <- tok a (x - 1) ;;
    tb <- tok b (y - 1) ;;
    if token_eqb ta tb then
      v <- get2 l (x - 1) (y - 1) ;; set2 l x y (v + 1)
    else
      u <- get2 l (x - 1) y ;;
      w <- get2 l x (y - 1) ;;
      set2 l x y (Nat.max u w).

Fixpoint fill_row (a b : list token) (x : nat) (ys : list nat) (l : table) : res table :=
  match ys with
  | [] => Ok l
  | y :: ys' => l' <- cell a b l x y ;; fill_row a b x ys' l'
  end.

Fixpoint fill (a b : list token) (xs : list nat) (l : table) : res table :=
  match xs with
  | [] => Ok l
  | x :: xs' => l' <- fill_row a b x (seq 0 (length b)) l ;; fill a b xs' l'
  end.

Definition lcs_table (a b : list token) : res table :=
  fill a b (seq 0 (length a)) (repeat (repeat 0 (length b + 1)) (length a + 1)).

(** The while loop, tokenizer.rs:107-122.  Each iteration decreases [i + j], so fuel [i + j]
    is enough; [OutOfFuel] is never answered with that fuel (proved). *)
Fixpoint backtrack (fuel : nat) (a b : list token) (l : table) (index i j : nat)
  (lcs : list (option token)) : res (list (option token)) :=
  if (0 <? i) && (0 <? j) then
    match fuel with
    | O => OutOfFuel
    | S f =>
      ta <- tok a (i - 1) ;;
      tb <- tok b (j - 1) ;;
      if token_eqb ta tb then
        if index =? 0 then Panic (lit "subtract with overflow")
        else
          lcs' <- unwrap (lit "index") (set_nth (index - 1) (Some ta) lcs) ;;
          backtrack f a b l (index - 1) (i - 1) (j - 1) lcs'
      else
        u <- get2 l (i - 1) j ;;
        w <- get2 l i (j - 1) ;;
        if w <? u then backtrack f a b l index (i - 1) j lcs
        else backtrack f a b l index i (j - 1) lcs
    end
  else Ok lcs.

(** tokenizer.rs:102-126: the slots of the common subsequence, then unwrapped.
    [size - 1] on an empty list is an arithmetic overflow panic with overflow checks; without
    them the index wraps to 2^64-1 and the table access panics. *)
Definition lcs_tokens (a b : list token) : res (list token) :=
  l <- lcs_table a b ;;
  match length a, length b with
  | O, _ | _, O => Panic (lit "subtract with overflow")
  | S n, S m =>
    index <- get2 l n m ;;
    slots <- backtrack (n + m) a b l index n m (repeat None index) ;;
    mapM (unwrap (lit "unwrap on None")) slots
  end.

(** Tokens with no equal among [lcs], tokenizer.rs:128-140 *)
Definition not_in_lcs (lcs : list token) (t : token) : bool :=
  negb (existsb (fun c => token_eqb c t) lcs).

Record diff := Diff { d_added : list token; d_removed : list token }.

Definition diff_tokens (a b : list token) : res diff :=
  lcs <- lcs_tokens a b ;;
  Ok (Diff (filter (not_in_lcs lcs) b) (filter (not_in_lcs lcs) a)).
