(** Checking what a concrete text says. Nothing here models code of /repo. *)
From Verif Require Import Base Text TextSpec TextFacts.
From Coq Require Import Lia ZArith List.
Import ListNotations.
Open Scope string_scope.
Open Scope Z_scope.

Lemma digit_char c d : digit_of c = Some d -> 0 <= d < 10 /\ c = ascii_of_N (48 + Z.to_N d).
Proof.
  unfold digit_of. destruct (N.leb_spec 48 (N_of_ascii c)); [|discriminate]. destruct (N.leb_spec (N_of_ascii c) 57); [|discriminate]. cbn [andb]. intros H'. injection H' as <-.
  split; [lia|]. rewrite N2Z.id. replace (48 + (N_of_ascii c - 48))%N with (N_of_ascii c) by lia. symmetry. apply ascii_N_embedding.
Qed.
Lemma scan_sound s : forall s0 v0 k0 v k, digits s0 v0 k0 -> scan_digits v0 k0 s = (v, k, "") -> digits (s0 ++ s) v k.
Proof.
  induction s as [|c s IH]; intros s0 v0 k0 v k H E; cbn in E.
  - injection E as <- <-. rewrite app_empty. exact H.
  - destruct (digit_of c) as [d|] eqn:Ed; [|discriminate E]. destruct (digit_char c d Ed) as [Hd ->].
    replace (s0 ++ String (ascii_of_N (48 + Z.to_N d)) s) with ((s0 ++ String (ascii_of_N (48 + Z.to_N d)) "") ++ s) by (rewrite app_assoc_s; reflexivity).
    apply (IH _ (v0 * 10 + d) (S k0)); [|exact E]. replace (v0 * 10 + d) with (10 * v0 + d) by ring. apply dg_more; assumption.
Qed.
Definition check_digits (s : string) (v : Z) (k : nat) : bool :=
  match s with "" => false | _ => let '(v', k', r) := scan_digits 0 0 s in (v' =? v) && (k' =? k)%nat && match r with "" => true | _ => false end end.
Lemma check_digits_ok s v k : check_digits s v k = true -> digits s v k.
Proof.
  unfold check_digits. destruct s as [|c s]; [discriminate|]. cbn [scan_digits]. destruct (digit_of c) as [d|] eqn:Ed; [|rewrite andb_false_r; discriminate].
  destruct (digit_char c d Ed) as [Hd Ec]. destruct (scan_digits (0 * 10 + d) 1 s) as [[v' k'] r] eqn:E. destruct r; [|rewrite andb_false_r; discriminate]. rewrite andb_true_r. intros H. apply andb_prop in H as [H1 H2]. apply Z.eqb_eq in H1. apply Nat.eqb_eq in H2. subst v' k'.
  change (String c s) with (String c "" ++ s). apply (scan_sound s _ (0 * 10 + d) 1); [|exact E]. rewrite Ec. replace (0 * 10 + d) with d by ring. apply dg_one, Hd.
Qed.
Fixpoint check_word (s : string) : bool := match s with "" => true | String c s' => negb (is_ws c) && check_word s' end.
Lemma check_word_ok s : check_word s = true -> all (fun c => ~ blank c) s.
Proof.
  induction s as [|c s IH]; intros H; [exact Logic.I|]. cbn in H. apply andb_prop in H as [H1 H2]. split; [|apply IH, H2]. intros Hb. apply is_ws_blank in Hb. rewrite Hb in H1. discriminate H1.
Qed.
Fixpoint join (l : list string) : string := match l with [] => "" | [t] => t | t :: l' => t ++ String " " (join l') end.
Definition check_words (l : list string) : bool := forallb (fun t => match t with "" => false | _ => check_word t end) l.
Lemma check_words_ok l : check_words l = true -> spaced l (join l).
Proof.
  induction l as [|t l IH]; intros H; [apply sp_nil; exact Logic.I|]. cbn in H. apply andb_prop in H as [H1 H2].
  assert (word t) as Ht by (destruct t; [discriminate H1|]; split; [discriminate|apply check_word_ok, H1]).
  destruct l as [|t' l']; [apply (sp_last _ "" t); [exact Logic.I|exact Ht]|]. apply (sp_cons _ "" t " " (join (t' :: l')) (t' :: l')); [exact Logic.I|exact Ht|left; reflexivity|apply IH, H2].
Qed.
Lemma digits_fun s v n v' n' : digits s v n -> digits s v' n' -> v = v'.
Proof.
  intros H H'. pose proof (scan_more s v n H 0 0%nat "") as E. rewrite (scan_more s v' n' H' 0 0%nat "") in E. cbn in E. congruence.
Qed.

(** The words of a line, whatever the line. *)
Section Sound.
Variables (sepb : ascii -> bool) (sep : ascii -> Prop).
Hypothesis Hsep : forall c, sepb c = true <-> sep c.
Lemma parted_sep c ts s : sep c -> parted sep ts s -> parted sep ts (String c s).
Proof.
  intros Hc [w Hw|w t Hw Ht|w t b s' ts' Hw Ht Hb Hs].
  - apply sp_nil. split; assumption.
  - apply (sp_last sep (String c w) t); [split; assumption|exact Ht].
  - apply (sp_cons sep (String c w) t b s' ts'); [split; assumption|exact Ht|exact Hb|exact Hs].
Qed.
Lemma split_sound_cur s : forall cur, all (fun c => ~ sep c) cur -> parted sep (split_by sepb cur s) (cur ++ s).
Proof.
  induction s as [|c s IH]; intros cur Hc; cbn [split_by].
  - rewrite app_empty. destruct cur as [|x cur]; [apply sp_nil; exact Logic.I|]. apply (sp_last sep "" (String x cur)); [exact Logic.I|]. split; [discriminate|exact Hc].
  - destruct (sepb c) eqn:E.
    + apply Hsep in E. destruct cur as [|x cur]; [apply parted_sep; [exact E|]; apply (IH ""); exact Logic.I|].
      apply (sp_cons sep "" (String x cur) c s); [exact Logic.I|split; [discriminate|exact Hc]|exact E|]. apply (IH ""). exact Logic.I.
    + specialize (IH (cur ++ String c "")). rewrite app_assoc_s in IH. apply IH. apply all_app. split; [exact Hc|]. split; [|exact Logic.I]. intros H. apply Hsep in H. congruence.
Qed.
Lemma split_sound s : parted sep (split_by sepb "" s) s.
Proof. apply (split_sound_cur s ""). exact Logic.I. Qed.
End Sound.
Lemma check_natural s v k : check_digits s v k = true -> natural s v.
Proof. intros H. exists k. apply check_digits_ok, H. Qed.
