(** What can be read in the line printed by [solve_timeout]. Nothing here models code of /repo. *)
From Verif Require Import Base Names Text TextSpec TextFacts Report ReportSpec.
From Coq Require Import Lia ZArith List String Ascii.
Import ListNotations.
Open Scope string_scope.
Open Scope Z_scope.

Definition no_bar (s : string) : Prop := all (fun c => c <> "|"%char) s.
Lemma no_bar_app a b : no_bar a -> no_bar b -> no_bar (a ++ b).
Proof. unfold no_bar. induction a as [|c a IH]; cbn; [auto|]. intros [H1 H2] H. auto. Qed.
Lemma no_bar_spaces n : no_bar (spaces n).
Proof. unfold no_bar. induction n; cbn; [exact I|]. split; [discriminate|assumption]. Qed.

Lemma parts_bar a b : no_bar a -> parts (a ++ String "|" b) = a :: parts b.
Proof.
  unfold no_bar. induction a as [|c a IH]; intros H; [reflexivity|]. destruct H as [H1 H2]. cbn [append parts].
  destruct (Ascii.eqb_spec c "|"); [contradiction|]. rewrite (IH H2). reflexivity.
Qed.
Lemma parts_last a : no_bar a -> parts a = [a].
Proof.
  unfold no_bar. induction a as [|c a IH]; intros H; [reflexivity|]. destruct H as [H1 H2]. cbn [parts].
  destruct (Ascii.eqb_spec c "|"); [contradiction|]. rewrite (IH H2). reflexivity.
Qed.

Lemma before_space s : no_space_before (String " " s) = no_space_before s.
Proof. reflexivity. Qed.
Lemma before_spaces n s : no_space_before (spaces n ++ s) = no_space_before s.
Proof. induction n; [reflexivity|]. cbn [spaces append]. rewrite before_space. exact IHn. Qed.
Lemma after_space s : no_space_after (s ++ " ") = no_space_after s.
Proof. induction s as [|c s IH]; [reflexivity|]. cbn [append no_space_after]. rewrite IH. reflexivity. Qed.

Definition clean (s : string) : string := no_space_after (no_space_before s).
Lemma before_kept s t : no_space_before s = s -> s <> "" -> no_space_before (s ++ t) = s ++ t.
Proof.
  destruct s as [|c s]; [congruence|]. cbn [no_space_before append]. destruct (Ascii.eqb c " "); [|reflexivity].
  intros H. exfalso. assert (Hl : forall x, (String.length (no_space_before x) <= String.length x)%nat).
  { induction x as [|c' x IH]; cbn; [lia|]. destruct (Ascii.eqb c' " "); cbn; lia. }
  specialize (Hl s). rewrite H in Hl. cbn in Hl. lia.
Qed.
(** The last part, and a part that is followed by a bar; with or without a space in front. *)
Lemma clean_last n s : plain s -> clean (spaces n ++ s) = s.
Proof. intros (_ & H1 & H2). unfold clean. rewrite before_spaces, H1. exact H2. Qed.
Lemma clean_mid n s : plain s -> clean (spaces n ++ s ++ " ") = s.
Proof.
  intros (_ & H1 & H2). unfold clean. rewrite before_spaces. destruct s as [|c s]; [reflexivity|].
  rewrite before_kept by (exact H1 || discriminate). rewrite after_space. exact H2.
Qed.

(** The line as a list of parts, each a text after some spaces. *)
Fixpoint row (l : list (nat * string)) : string :=
  match l with
  | [] => ""
  | [(n, t)] => spaces n ++ t
  | (n, t) :: l' => spaces n ++ t ++ " | " ++ row l'
  end.
Lemma row_cons n t x l : row ((n, t) :: x :: l) = spaces n ++ t ++ " | " ++ row (x :: l).
Proof. destruct x; reflexivity. Qed.

Lemma plain_bar s : plain s -> no_bar s.
Proof. intros (H & _). exact H. Qed.
Lemma cells_row l : l <> [] -> Forall (fun p => plain (snd p)) l -> cells (row l) = map snd l /\ cells (String " " (row l)) = map snd l.
Proof.
  intros Hl H. induction H as [|[n t] l Ht H IH]; [congruence|]. cbn [snd] in Ht. unfold cells in *.
  destruct l as [|x l].
  - change (row [(n, t)]) with (spaces n ++ t). change (String " " (spaces n ++ t)) with (spaces (S n) ++ t).
    split; (rewrite parts_last by (apply no_bar_app; [apply no_bar_spaces|apply plain_bar, Ht])); cbn [map snd]; f_equal; apply clean_last, Ht.
  - assert (Hx : x :: l <> []) by discriminate. destruct (IH Hx) as (I1 & I2). rewrite row_cons.
    change (" | " ++ row (x :: l)) with (" " ++ String "|" (String " " (row (x :: l)))).
    change (String " " (spaces n ++ t ++ " " ++ String "|" (String " " (row (x :: l))))) with (spaces (S n) ++ t ++ " " ++ String "|" (String " " (row (x :: l)))).
    assert (Hb : forall k, no_bar (spaces k ++ t ++ " ")).
    { intros k. apply no_bar_app; [apply no_bar_spaces|]. apply no_bar_app; [apply plain_bar, Ht|]. unfold no_bar. cbn. split; [discriminate|exact I]. }
    assert (He : forall k, spaces k ++ t ++ " " ++ String "|" (String " " (row (x :: l))) = (spaces k ++ t ++ " ") ++ String "|" (String " " (row (x :: l)))).
    { intros k. rewrite !app_assoc_s. reflexivity. }
    split; rewrite He, parts_bar by apply Hb; cbn [map snd]; f_equal; try (apply clean_mid, Ht); exact I2.
Qed.

Lemma columns_row l n t : columns (map (fun p => spaces (fst p) ++ snd p) ((n, t) :: l)) = row ((n, t) :: l).
Proof.
  unfold columns. cbn [map fst snd]. 
  assert (H : forall l a, fold_left (fun a b => a ++ " | " ++ b) (map (fun p => spaces (fst p) ++ snd p) l) a = a ++ match l with [] => "" | _ => " | " ++ row l end).
  { clear. induction l as [|[n t] l IH]; intros a; [cbn; rewrite app_empty; reflexivity|]. cbn [map fold_left fst snd]. rewrite IH. destruct l as [|x l].
    - rewrite app_empty. reflexivity.
    - rewrite row_cons. rewrite !app_assoc_s. reflexivity. }
  rewrite H. destruct l as [|x l]; [cbn; rewrite app_empty; reflexivity|]. rewrite row_cons, !app_assoc_s. reflexivity.
Qed.

(** The texts of a report. *)
Definition dark (c : ascii) : Prop := c <> "|"%char /\ c <> " "%char.
Lemma dark_before s : all dark s -> no_space_before s = s.
Proof. destruct s as [|c s]; [reflexivity|]. intros [[_ H] _]. cbn. destruct (Ascii.eqb_spec c " "); [contradiction|reflexivity]. Qed.
Lemma dark_after s : all dark s -> no_space_after s = s.
Proof.
  induction s as [|c s IH]; [reflexivity|]. intros [[_ H] H']. cbn [no_space_after]. rewrite (IH H'). destruct s; [|reflexivity].
  destruct (Ascii.eqb_spec c " "); [contradiction|reflexivity].
Qed.
Lemma dark_plain s : all dark s -> plain s.
Proof.
  intros H. split; [|split; [apply dark_before, H|apply dark_after, H]]. induction s as [|c s IH]; [exact I|]. destruct H as [[H _] H']. split; [exact H|auto].
Qed.
Lemma dark_digit d : dark (digit_char (d mod 10)).
Proof.
  assert (0 <= d mod 10 < 10) by (apply Z.mod_pos_bound; lia). remember (d mod 10) as m.
  assert (m = 0 \/ m = 1 \/ m = 2 \/ m = 3 \/ m = 4 \/ m = 5 \/ m = 6 \/ m = 7 \/ m = 8 \/ m = 9) as Hm by lia.
  repeat (destruct Hm as [->|Hm]; [split; vm_compute; discriminate|]). subst. rewrite Hm. split; vm_compute; discriminate.
Qed.
Lemma dark_digits fuel : forall n s, all dark s -> all dark (show_digits fuel n s).
Proof.
  induction fuel as [|f IH]; intros n s H; cbn [show_digits]; destruct (n <? 10); try (cbn [all]; split; [apply dark_digit|exact H]). apply IH. cbn [all]. split; [apply dark_digit|exact H].
Qed.
Lemma plain_isize z : plain (show_isize z).
Proof. apply dark_plain. unfold show_isize. destruct (z <? 0); [cbn [all]; split; [split; discriminate|]|]; apply dark_digits; exact I. Qed.
Lemma plain_usize n : plain (show_usize n).
Proof. apply dark_plain. apply dark_digits. exact I. Qed.
Lemma plain_dec s : (if forallb (fun c => negb (Ascii.eqb c "|")) (list_ascii_of_string s) then true else false) = true -> no_space_before s = s -> no_space_after s = s -> plain s.
Proof.
  intros H H1 H2. split; [|auto]. clear H1 H2. induction s as [|c s IH]; [exact I|]. cbn in H. destruct (Ascii.eqb_spec c "|"); [discriminate|]. cbn in H. split; [assumption|auto].
Qed.

Definition plain_report (r : report) : Prop :=
  plain (rp_name r) /\ plain (rp_solver r) /\ plain (rp_status r) /\ plain (rp_best r) /\ plain (rp_lb r) /\ plain (rp_ub r) /\ plain (rp_explored r) /\ plain (rp_explored_dd r).
Lemma conclude_plain debug name sv i b lb ub e1 e2 r u : plain name -> conclude debug name sv i b lb ub e1 e2 = Some (r, u) -> plain_report r.
Proof.
  intros Hn. unfold conclude. destruct (gap_checked debug lb ub); cbn [obind]; [|discriminate]. intros H. injection H as <- _. unfold plain_report. cbn [rp_name rp_solver rp_status rp_best rp_lb rp_ub rp_explored rp_explored_dd].
  split; [exact Hn|]. split; [destruct sv; apply plain_dec; reflexivity|]. split; [destruct i; apply plain_dec; reflexivity|].
  split; [destruct b; [apply plain_isize|apply plain_dec; reflexivity]|]. auto 8 using plain_isize, plain_usize.
Qed.

Lemma line_row r time ram g : report_line r time ram g = row (map (fun p => ((fst p - String.length (snd p))%nat, snd p))
  [(30%nat, rp_name r); (0%nat, rp_solver r); (0%nat, rp_status r); (8%nat, time); (8%nat, ram); (15%nat, rp_best r); (15%nat, rp_lb r); (15%nat, rp_ub r);
   (5%nat, g); (15%nat, rp_explored r); (15%nat, rp_explored_dd r)]).
Proof. unfold report_line, right_aligned. cbn [map fst snd]. rewrite <- columns_row. reflexivity. Qed.
Lemma report_cells r time ram g : plain_report r -> plain time -> plain ram -> plain g ->
  cells (report_line r time ram g) = [rp_name r; rp_solver r; rp_status r; time; ram; rp_best r; rp_lb r; rp_ub r; g; rp_explored r; rp_explored_dd r].
Proof.
  intros (h1 & h2 & h3 & h4 & h5 & h6 & h7 & h8) Ht Hr Hg. rewrite line_row. refine (proj1 (cells_row _ _ _)); [discriminate|]. cbn [map fst snd].
  repeat (apply Forall_cons; [assumption|]). apply Forall_nil.
Qed.
Lemma header_cells : cells header_line = ["NAME"; "SOLVER"; "STATUS"; "DURATION"; "RAM_(MB)"; "BEST-VAL"; "LB"; "UB"; "GAP"; "NODES B&B"; "NODES DD"].
Proof. vm_compute. reflexivity. Qed.

Section Ends.
Variable S : Type.
Variable eqb : S -> S -> bool.
Lemma line_read (cfg : config S) debug name threads cpus sv r u time ram g :
  solve_timeout_ends eqb cfg debug name threads cpus sv (Some (r, u)) -> plain name -> plain time -> plain ram -> plain g ->
  List.length (cells (report_line r time ram g)) = List.length (cells header_line) /\
  combine (cells header_line) (cells (report_line r time ram g)) =
    [("NAME", name); ("SOLVER", show_solver sv); ("STATUS", rp_status r); ("DURATION", time); ("RAM_(MB)", ram); ("BEST-VAL", rp_best r);
     ("LB", rp_lb r); ("UB", rp_ub r); ("GAP", g); ("NODES B&B", rp_explored r); ("NODES DD", rp_explored_dd r)].
Proof.
  intros H Hn Ht Hr Hg.
  assert (Hx : plain_report r /\ rp_name r = name /\ rp_solver r = show_solver sv).
  { inversion H as [st _ _ E1 E2|st _ _ E1 E2|]; subst; unfold parallel_conclusion, barrier_conclusion in *;
      (split; [eapply conclude_plain; [exact Hn|eassumption]|]); unfold conclude in E2; destruct (gap_checked _ _ _); try discriminate; cbn [obind] in E2; injection E2 as <- _; split; reflexivity. }
  destruct Hx as (Hx & <- & <-). rewrite (report_cells r time ram g Hx Ht Hr Hg), header_cells. split; reflexivity.
Qed.
End Ends.
