(** * Model of the seed sequences and of the seeds of stochastic power nodes

    Randutils/include/randutils.hpp:216-376 (seed_seq_fe), 406-541 (auto_seeded),
    src/Auxillary/Stochastics/Normaldistribution.cpp:29-53, StochasticPQnode.cpp:44-76.

    A value of uint32_t is an integer; all arithmetic operations are reduced modulo 2^32.  Only
    IntRep = uint32_t is modelled, the one that is used (Normaldistribution.cpp:31, 40). *)
From Coq Require Import Reals ZArith List Bool Arith.
From Verif Require Import Base.
Import ListNotations.
Local Open Scope Z_scope.

Definition w32 (x : Z) : Z := x mod 2 ^ 32.

(** The constants, randutils.hpp:225-233; XSHIFT is 4 * 8 / 2. *)
Definition INIT_A : Z := 0x43b0d7e5.
Definition MULT_A : Z := 0x931e8875.
Definition INIT_B : Z := 0x8b51f9dd.
Definition MULT_B : Z := 0x58f38ded.
Definition MIX_MULT_L : Z := 0xca01f9dd.
Definition MIX_MULT_R : Z := 0x4973f715.
Definition XSHIFT : Z := 4 * 8 / 2.

(** fast_exp, randutils.hpp:235-246.  The loop ends after at most 32 rounds, since [power] has 32
    bits. *)
Fixpoint fast_exp_loop (fuel : nat) (result multiplier power : Z) : Z :=
  match fuel with
  | O => result
  | S f =>
      if power =? 0 then result
      else let thismult := if Z.land power 1 =? 0 then 1 else multiplier in
           fast_exp_loop f (w32 (result * thismult)) (w32 (multiplier * multiplier)) (Z.shiftr power 1)
  end.
Definition fast_exp (x power : Z) : Z := fast_exp_loop 32 1 x power.

(** value ^= value >> XSHIFT. *)
Definition xorshift (value : Z) : Z := Z.lxor value (Z.shiftr value XSHIFT).

(** The lambda hash, randutils.hpp:291-297; it also changes hash_const, captured by reference. *)
Definition hash (hash_const value : Z) : Z * Z :=
  let value := Z.lxor value hash_const in
  let hash_const := w32 (hash_const * MULT_A) in
  let value := w32 (value * hash_const) in
  (xorshift value, hash_const).

(** The lambda mix, randutils.hpp:298-302. *)
Definition mix (x y : Z) : Z :=
  let result := w32 (w32 (MIX_MULT_L * x) - w32 (MIX_MULT_R * y)) in
  xorshift result.

(** Reading and writing mixer_. *)
Definition word_at (m : list Z) (i : nat) : Z := nth i m 0.
Fixpoint set_word (m : list Z) (i : nat) (v : Z) : list Z :=
  match m, i with
  | [], _ => []
  | _ :: r, O => v :: r
  | a :: r, S i' => a :: set_word r i' v
  end.

(** The first loop of mix_entropy, randutils.hpp:304-310: hashes [count] inputs, zeros if there
    are not enough.  Result: the words, hash_const and the remaining inputs. *)
Fixpoint fill (count : nat) (hash_const : Z) (input : list Z) : list Z * Z * list Z :=
  match count with
  | O => ([], hash_const, input)
  | S c =>
      let (v, rest) := match input with [] => (0, []) | v :: rest => (v, rest) end in
      let (h, hash_const) := hash hash_const v in
      let '(m, hash_const, rest) := fill c hash_const rest in
      (h :: m, hash_const, rest)
  end.

(** One round of the second loop, lines 311-314: source [s], destination [d]. *)
Definition mix_step (st : list Z * Z) (sd : nat * nat) : list Z * Z :=
  let (m, hash_const) := st in
  let (s, d) := sd in
  if Nat.eqb s d then st
  else let (h, hash_const) := hash hash_const (word_at m s) in
       (set_word m d (mix (word_at m d) h), hash_const).
(** The pairs of indices in the order of the two nested loops. *)
Definition nested (outer inner : list nat) : list (nat * nat) :=
  flat_map (fun s => map (fun d => (s, d)) inner) outer.

(** One round of the third loop, lines 315-316, with the input [v]. *)
Definition extra_step (v : Z) (st : list Z * Z) (d : nat) : list Z * Z :=
  let (m, hash_const) := st in
  let (h, hash_const) := hash hash_const v in
  (set_word m d (mix (word_at m d) h), hash_const).

(** mix_entropy, randutils.hpp:286-317: the new mixer_. *)
Definition mix_entropy (count : nat) (input : list Z) : list Z :=
  let '(m, hash_const, rest) := fill count INIT_A input in
  let st := fold_left mix_step (nested (seq 0 count) (seq 0 count)) (m, hash_const) in
  fst (fold_left (fun st v => fold_left (extra_step v) (seq 0 count) st) rest st).

(** The template argument mix_rounds, line 218, and seed, lines 273-283.  stir mixes the words of
    mixer_ themselves; the first loop reads each word before it overwrites it. *)
Definition mix_rounds (count : nat) : nat := if (count <=? 2)%nat then 2 else 1.
Fixpoint stir (rounds : nat) (count : nat) (m : list Z) : list Z :=
  match rounds with O => m | S r => stir r count (mix_entropy count m) end.
Definition seed (count : nat) (input : list Z) : list Z :=
  stir (mix_rounds count - 1) count (mix_entropy count input).

(** param, randutils.hpp:319-356. *)
Definition unmix_step (INV_A MIX_INV_L : Z) (st : list Z * Z) (sd : nat * nat) : list Z * Z :=
  let (m, hash_const) := st in
  let (s, d) := sd in
  if Nat.eqb s d then st
  else let revhashed := word_at m s in
       let mult_const := hash_const in
       let hash_const := w32 (hash_const * INV_A) in
       let revhashed := Z.lxor revhashed hash_const in
       let revhashed := w32 (revhashed * mult_const) in
       let revhashed := xorshift revhashed in
       let unmixed := word_at m d in
       let unmixed := xorshift unmixed in
       let unmixed := w32 (unmixed + w32 (MIX_MULT_R * revhashed)) in
       let unmixed := w32 (unmixed * MIX_INV_L) in
       (set_word m d unmixed, hash_const).
Definition unhash_step (INV_A : Z) (st : list Z * Z) (i : nat) : list Z * Z :=
  let (m, hash_const) := st in
  let unhashed := word_at m i in
  let unhashed := xorshift unhashed in
  let unhashed := w32 (unhashed * fast_exp hash_const (w32 (-1))) in
  let hash_const := w32 (hash_const * INV_A) in
  let unhashed := Z.lxor unhashed hash_const in
  (set_word m i unhashed, hash_const).
Definition param_round (count : nat) (m : list Z) : list Z :=
  let INV_A := fast_exp MULT_A (w32 (-1)) in
  let MIX_INV_L := fast_exp MIX_MULT_L (w32 (-1)) in
  let hash_const := w32 (INIT_A * fast_exp MULT_A (w32 (Z.of_nat (count * count)))) in
  let st := fold_left (unmix_step INV_A MIX_INV_L)
              (nested (rev (seq 0 count)) (rev (seq 0 count))) (m, hash_const) in
  fst (fold_left (unhash_step INV_A) (rev (seq 0 count)) st).
Fixpoint param_rounds (rounds count : nat) (m : list Z) : list Z :=
  match rounds with O => m | S r => param_rounds r count (param_round count m) end.
Definition param (count : nat) (m : list Z) : list Z := param_rounds (mix_rounds count) count m.

(** generate, randutils.hpp:358-376: [k] words from the mixer [m]; [src] is the part of the mixer
    not yet used in the present round. *)
Fixpoint generate_loop (k : nat) (m src : list Z) (hash_const : Z) : list Z :=
  match k with
  | O => []
  | S k' =>
      let dataval := match src with a :: _ => a | [] => 0 end in
      let src := match src with [] | [_] => m | _ :: r => r end in
      let dataval := Z.lxor dataval hash_const in
      let hash_const := w32 (hash_const * MULT_B) in
      let dataval := w32 (dataval * hash_const) in
      let dataval := xorshift dataval in
      dataval :: generate_loop k' m src hash_const
  end.
Definition generate (m : list Z) (k : nat) : list Z := generate_loop k m m INIT_B.

(** ** The seeds of the program *)

(** pcg_seed_count, Normaldistribution.hpp:23. *)
Definition pcg_seed_count : nat := 8.

(** make_random_seed, Normaldistribution.cpp:29-35: [entropy] are the words collected by
    auto_seeded::local_entropy (randutils.hpp:432-523), of which nothing is assumed. *)
Definition make_random_seed (entropy : list Z) : list Z :=
  param pcg_seed_count (seed pcg_seed_count entropy).

(** setup_random_number_generator, Normaldistribution.cpp:37-46.  The generator pcg64 is not part
    of /repo; its constructor gets words from the seed sequence only by generate, so [pcg] is an
    arbitrary function of the sequence of generated words. *)
Definition setup_random_number_generator {G : Type} (pcg : (nat -> list Z) -> G) (s : list Z) : G :=
  pcg (generate (seed pcg_seed_count s)).

(** Normaldistribution::Normaldistribution, Normaldistribution.cpp:48-53: generator and used_seed. *)
Definition normaldistribution {G : Type} (pcg : (nat -> list Z) -> G) (s : list Z) : G * list Z :=
  (setup_random_number_generator pcg s, s).

(** An entry of a list in a json file: an integer (nlohmann's number_integer and
    number_unsigned), another number, or something else. *)
Inductive entry := Integer (z : Z) | Floating (x : R) | Boolean (b : bool) | Other.

(** The truncation of a real number towards zero. *)
Definition truncate (x : R) : Z :=
  if Rlt_dec x 0 then - (up (- x) - 1) else up x - 1.

(** get<uint32_t>: static_cast from the stored number.  For floating point numbers it is
    undefined behaviour if the truncated value does not fit. *)
Definition get_uint32 (e : entry) : outcome Z :=
  match e with
  | Integer z => Ok (w32 z)
  | Floating x => if ((0 <=? truncate x) && (truncate x <? 2 ^ 32))%bool then Ok (truncate x) else UB
  | Boolean b => Ok (if b then 1 else 0)
  | Other => Exc
  end.
(** get<std::array<uint32_t, 8>>: at(i) throws if the list is too short; further entries are
    ignored. *)
Fixpoint get_array (count : nat) (l : list entry) : outcome (list Z) :=
  match count with
  | O => Ok []
  | S c =>
      match l with
      | [] => Exc
      | e :: r => obind (get_uint32 e) (fun v => omap (cons v) (get_array c r))
      end
  end.

(** The value of boundary_values["seed"], if there is one. *)
Inductive seed_value := Absent | Listed (l : list entry) | Otherwise.

(** The boundary schema, StochasticPQnode.cpp:44-50: if there is a seed, it is a list of
    numbers. *)
Definition seed_schema (v : seed_value) : bool :=
  match v with
  | Absent => true
  | Listed l => forallb (fun e => match e with Integer _ | Floating _ => true | _ => false end) l
  | Otherwise => false
  end.

(** The part of the constructor StochasticPQnode.cpp:54-76 that concerns the seed: the
    generator, and the list written to output["seed"]. *)
Definition stochastic_node {G : Type} (pcg : (nat -> list Z) -> G) (entropy : list Z) (v : seed_value)
  : outcome (G * list entry) :=
  let result := fun s => let (g, used_seed) := normaldistribution pcg s in (g, map Integer used_seed) in
  match v with
  | Absent => Ok (result (make_random_seed entropy))
  | Listed l => omap result (get_array pcg_seed_count l)
  | Otherwise => Exc
  end.
