(** Model of src/mdd/node_flags.rs (lines 47-176): node flags packed in one byte. *)
From Verif Require Export Base.
From Coq Require Export NArith.

(** src/mdd/node_flags.rs:48 [struct NodeFlags(u8)]: a byte, represented by an [N]. *)
Definition flags := N.

(** src/mdd/node_flags.rs:51-61, the masks. *)
Definition F_EXACT : N := 1.
(** src/mdd/node_flags.rs:53. *)
Definition F_RELAXED : N := 2.
(** src/mdd/node_flags.rs:55. *)
Definition F_MARKED : N := 4.
(** src/mdd/node_flags.rs:57. *)
Definition F_CUTSET : N := 8.
(** src/mdd/node_flags.rs:59. *)
Definition F_DELETED : N := 16.
(** src/mdd/node_flags.rs:61. *)
Definition F_BARRIER : N := 32.

(** src/mdd/node_flags.rs:148-150 [test]. *)
Definition f_test (f : flags) (mask : N) : bool := N.eqb (N.land f mask) mask.
(** src/mdd/node_flags.rs:162-164 [add]. *)
Definition f_add (f : flags) (m : N) : flags := N.lor f m.
(** src/mdd/node_flags.rs:167-169 [remove]: [self.0 &= !flags] on 8 bits. *)
Definition f_remove (f : flags) (m : N) : flags := N.land f (N.lxor 255 m).
(** src/mdd/node_flags.rs:153-159 [set]. *)
Definition f_set (f : flags) (m : N) (v : bool) : flags := if v then f_add f m else f_remove f m.

(** src/mdd/node_flags.rs:76-83,67-73,173-175 constructors. *)
Definition new_exact : flags := F_EXACT.
(** src/mdd/node_flags.rs:81-83. *)
Definition new_relaxed : flags := F_RELAXED.
(** src/mdd/node_flags.rs:67-73 [new]. *)
Definition new_flags (relaxed : bool) : flags := if relaxed then new_relaxed else new_exact.
(** src/mdd/node_flags.rs:173-175. *)
Definition default_flags : flags := new_exact.

(** src/mdd/node_flags.rs:86-114 queries. *)
Definition is_exact (f : flags) : bool := f_test f F_EXACT && negb (f_test f F_RELAXED).
(** src/mdd/node_flags.rs:91-93. *)
Definition is_relaxed (f : flags) : bool := f_test f F_RELAXED.
(** src/mdd/node_flags.rs:96-98. *)
Definition is_marked (f : flags) : bool := f_test f F_MARKED.
(** src/mdd/node_flags.rs:102-104. *)
Definition is_cutset (f : flags) : bool := f_test f F_CUTSET.
(** src/mdd/node_flags.rs:107-109. *)
Definition is_deleted (f : flags) : bool := f_test f F_DELETED.
(** src/mdd/node_flags.rs:112-114. *)
Definition is_pruned_by_barrier (f : flags) : bool := f_test f F_BARRIER.

(** src/mdd/node_flags.rs:117-144 setters. *)
Definition set_exact (f : flags) (v : bool) : flags := f_set f F_EXACT v.
(** src/mdd/node_flags.rs:122-124. *)
Definition set_relaxed (f : flags) (v : bool) : flags := f_set f F_RELAXED v.
(** src/mdd/node_flags.rs:127-129. *)
Definition set_marked (f : flags) (v : bool) : flags := f_set f F_MARKED v.
(** src/mdd/node_flags.rs:132-134. *)
Definition set_cutset (f : flags) (v : bool) : flags := f_set f F_CUTSET v.
(** src/mdd/node_flags.rs:137-139. *)
Definition set_deleted (f : flags) (v : bool) : flags := f_set f F_DELETED v.
(** src/mdd/node_flags.rs:142-144. *)
Definition set_pruned_by_barrier (f : flags) (v : bool) : flags := f_set f F_BARRIER v.
