(** Model of the bit set helpers of src/utils.rs (lines 28-162). A bit set is the list of its
    64-bit words ([BitSet::buffer()] of the external crate bitset_fixed). *)
From Verif Require Export Base.
From Coq Require Export NArith.

(** [u64] arithmetic: left shift drops the bits above position 63. src/utils.rs:41-74. *)
Definition shl64 (x : N) (k : N) : N := N.modulo (N.shiftl x k) (2 ^ 64).

(** src/utils.rs:28-37 [struct BitSetIter]: remaining words, current word, base and offset. *)
Record bsi := mk_bsi { bi_iter : list N; bi_word : option N; bi_base : N; bi_offset : N }.

(** src/utils.rs:41-45 [BitSetIter::new]. *)
Definition bsi_new (buffer : list N) : bsi :=
  match buffer with
  | [] => mk_bsi [] None 0 0
  | w :: t => mk_bsi t (Some w) 0 0
  end.

(** src/utils.rs:62-65: [while (w & mask) == 0 && self.offset < 64 { mask <<= 1; offset += 1 }].
    The loop runs at most 64 times; [fuel] bounds it, and running out of fuel is the error value. *)
Fixpoint bsi_scan (fuel : nat) (w mask offset : N) : option N :=
  match fuel with
  | O => None
  | S k =>
      if (N.land w mask =? 0)%N && (offset <? 64)%N
      then bsi_scan k w (shl64 mask 1) (offset + 1)
      else Some offset
  end.

(** src/utils.rs:54-74 [next]. The outer loop runs at most twice per remaining word; the outer option is the
    error value (fuel), the inner one is the value returned by [next]. *)
Fixpoint bsi_next (fuel : nat) (it : bsi) : option (option N * bsi) :=
  match fuel with
  | O => None
  | S k =>
      match bi_word it with
      | None => Some (None, it)
      | Some w =>
          if (w =? 0)%N || (64 <=? bi_offset it)%N then
            let '(w', t') := match bi_iter it with [] => (None, []) | h :: t => (Some h, t) end in
            bsi_next k (mk_bsi t' w' (bi_base it + 64) 0)
          else
            do off <- bsi_scan 65 w (shl64 1 (bi_offset it)) (bi_offset it);
            if (off <? 64)%N
            then Some (Some (bi_base it + off)%N, mk_bsi (bi_iter it) (Some w) (bi_base it) (off + 1))
            else bsi_next k (mk_bsi (bi_iter it) (Some w) (bi_base it) off)
      end
  end.

(** Fuel that is always enough for one call to [next] (proved in BitSetFacts.v). src/utils.rs:41-74. *)
Definition bsi_fuel (it : bsi) : nat := 2 * length (bi_iter it) + 4.

(** A [for] loop over the iterator: collects the yielded items until [next] returns [None];
    at most [n] items. [None] when [n] or the inner fuel is too small. src/utils.rs:41-74. *)
Fixpoint bsi_collect (n : nat) (it : bsi) : option (list N) :=
  match n with
  | O => None
  | S k =>
      match bsi_next (bsi_fuel it) it with
      | None => None
      | Some (None, _) => Some []
      | Some (Some x, it') => match bsi_collect k it' with Some l => Some (x :: l) | None => None end
      end
  end.

(** src/utils.rs:128-136: the loop over the 64 masks of two differing words. *)
Fixpoint lex_bits (n : nat) (x y mask : N) : comparison :=
  match n with
  | O => Eq
  | S k =>
      let bx := N.land x mask in
      let by_ := N.land y mask in
      if negb (bx =? by_)%N then N.compare bx by_ else lex_bits k x y (shl64 mask 1)
  end.

(** src/utils.rs:119-140 [LexBitSet::cmp]: missing words count as zero. *)
Fixpoint lex_words (n : nat) (x y : list N) : comparison :=
  match n with
  | O => Eq
  | S k =>
      let xi := hd 0%N x in
      let yi := hd 0%N y in
      let next := lex_words k (tl x) (tl y) in
      if negb (xi =? yi)%N then then_with (lex_bits 64 xi yi 1) next else next
  end.
Definition lex_cmp (x y : list N) : comparison := lex_words (Nat.max (length x) (length y)) x y.

(** src/utils.rs:146-148 [partial_cmp]. *)
Definition lex_partial_cmp (x y : list N) : option comparison := Some (lex_cmp x y).

(** [BitSet]'s own equality: same words. (The crate also compares the declared sizes.) External crate; used with src/utils.rs. *)
Fixpoint words_eqb (x y : list N) : bool :=
  match x, y with
  | [], [] => true
  | a :: x', b :: y' => (a =? b)%N && words_eqb x' y'
  | _, _ => false
  end.

(** src/utils.rs:159-161 [eq]. *)
Definition lex_eq (x y : list N) : bool :=
  words_eqb x y || match lex_cmp x y with Eq => true | _ => false end.
