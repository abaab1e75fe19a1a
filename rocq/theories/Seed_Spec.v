(** * What seed sequences promise *)
From Coq Require Import ZArith List.
Import ListNotations.
Local Open Scope Z_scope.

(** A value of uint32_t, and [n] of them. *)
Definition is_word (x : Z) : Prop := 0 <= x < 2 ^ 32.
Definition words (n : nat) (l : list Z) : Prop := length l = n /\ Forall is_word l.

(** [f] maps the lists of [n] words one-to-one onto themselves. *)
Definition bijective (n : nat) (f : list Z -> list Z) : Prop :=
  (forall l, words n l -> words n (f l)) /\
  (forall l l', words n l -> words n l' -> f l = f l' -> l = l') /\
  (forall m, words n m -> exists l, words n l /\ f l = m).
