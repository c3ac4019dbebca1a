(** TSPTW files: concrete ones. Nothing here models code of /repo. *)
From Verif Require Import Base F32 TsptwFile TsptwFileSpec TextFacts TextCheck TsptwFileFacts TsptwFileLoop TsptwFileNum TsptwFileProofs.
From Coq Require Import Lia ZArith List Permutation.
Import ListNotations.
Open Scope string_scope.
Open Scope Z_scope.

Lemma denotes_int t p k x : check_digits t p k = true -> x = 10000 * p -> denotes t x.
Proof. intros H ->. exists p, 0%nat. split; [lia|]. split; [apply dc_nosign, un_plain, (pl_int _ _ k), check_digits_ok, H|]. cbn. ring. Qed.
Lemma denotes_frac t a v n b w k x : t = a ++ "." ++ b -> check_digits a v n = true -> check_digits b w k = true -> (k <= 20)%nat -> x * 10 ^ Z.of_nat k = 10000 * (v * 10 ^ Z.of_nat k + w) -> denotes t x.
Proof. intros -> Ha Hb Hk Hx. exists (v * 10 ^ Z.of_nat k + w), k. split; [exact Hk|]. split; [apply dc_nosign, un_plain, (pl_frac a v n b w k); apply check_digits_ok; assumption|exact Hx]. Qed.

(** A file written with one blank between words and no comment. *)
Definition check_lines (c : list (list string)) : bool :=
  forallb (fun l => check_words l && match l with [] => false | "" :: _ => false | String x _ :: _ => negb (Ascii.eqb x "#") end) c.
Lemma check_lines_ok c : check_lines c = true -> content (map join c) c.
Proof.
  induction c as [|l c IH]; intros H; [apply ct_nil|]. cbn in H. apply andb_prop in H as [H1 H2]. apply andb_prop in H1 as [H1 H3]. destruct l as [|[|x a] ts]; [discriminate H3|discriminate H3|].
  apply (ct_line _ (String x a) ts); [apply check_words_ok, H1| |apply IH, H2]. intros r E. injection E as -> ->. discriminate H3.
Qed.

(** A small file, read exactly. *)
Definition file1 : list string := ["# three nodes"; ""; "3"; "0 19.0 2.5"; " 18 0  7.25"; "2.5 7.25 0"; "# windows"; "0 1000"; "0 408"; "62 500"].
Definition inst1 : tw_inst := mk_tw 3 (mk_mat 3 3 [0; 190000; 25000; 180000; 0; 72500; 25000; 72500; 0]) [mk_window 0 10000000; mk_window 0 4080000; mk_window 620000 5000000].
Ltac nodes i := repeat (destruct i as [|i]; [|try (exfalso; cbn in *; lia)]).
Lemma case1 : file_denotes file1 inst1.
Proof.
  split; [|cbn; auto|reflexivity]. exists "3", [], [["0"; "19.0"; "2.5"]; ["18"; "0"; "7.25"]; ["2.5"; "7.25"; "0"]], [["0"; "1000"]; ["0"; "408"]; ["62"; "500"]], 1%nat.
  assert (denotes "0" 0) by (apply (denotes_int _ 0 1); reflexivity). assert (denotes "2.5" 25000) by (apply (denotes_frac _ "2" 2 1 "5" 5 1); [reflexivity..|lia|reflexivity]).
  assert (denotes "7.25" 72500) by (apply (denotes_frac _ "7" 7 1 "25" 25 2); [reflexivity..|lia|reflexivity]). assert (denotes "19.0" 190000) by (apply (denotes_frac _ "19" 19 2 "0" 0 1); [reflexivity..|lia|reflexivity]).
  assert (denotes "18" 180000) by (apply (denotes_int _ 18 2); reflexivity).
  split.
  { unfold file1. apply (ct_comment "" " three nodes"); [exact Logic.I|]. apply ct_empty; [exact Logic.I|]. apply (ct_line _ "3" []); [apply (check_words_ok ["3"]); reflexivity|intros; discriminate|].
    apply (ct_line _ "0" ["19.0"; "2.5"]); [apply (check_words_ok ["0"; "19.0"; "2.5"]); reflexivity|intros; discriminate|].
    apply (ct_line _ "18" ["0"; "7.25"]); [|intros; discriminate|].
    { apply (sp_cons _ " " "18" " "); [split; [left; reflexivity|exact Logic.I]|split; [discriminate|apply check_word_ok; reflexivity]|left; reflexivity|].
      apply (sp_cons _ "" "0" " "); [exact Logic.I|split; [discriminate|apply check_word_ok; reflexivity]|left; reflexivity|].
      apply (sp_last _ " " "7.25"); [split; [left; reflexivity|exact Logic.I]|split; [discriminate|apply check_word_ok; reflexivity]]. }
    apply (ct_line _ "2.5" ["7.25"; "0"]); [apply (check_words_ok ["2.5"; "7.25"; "0"]); reflexivity|intros; discriminate|].
    apply (ct_comment "" " windows"); [exact Logic.I|]. apply (check_lines_ok [["0"; "1000"]; ["0"; "408"]; ["62"; "500"]]). reflexivity. }
  split; [apply check_digits_ok; reflexivity|]. split; [reflexivity|]. split; [reflexivity|]. split; [intros i Hi; cbn in Hi; nodes i; reflexivity|]. split.
  - intros i j Hi Hj. cbn in Hi, Hj. nodes i; nodes j; assumption.
  - intros i Hi. cbn in Hi. nodes i; do 2 eexists; (split; [reflexivity|]); split; try assumption.
    + apply (denotes_int _ 1000 4); reflexivity.
    + apply (denotes_int _ 408 3); reflexivity.
    + apply (denotes_int _ 62 2); reflexivity.
    + apply (denotes_int _ 500 3); reflexivity.
Qed.
Lemma case1_times : forall p, in_inst inst1 p -> exists j s, 0 <= j <= 26843 /\ 0 <= s <= 10 /\ time_at inst1 p = 625 * j * 2 ^ s.
Proof.
  intros [i j|i|i] Hp; cbn in Hp; [destruct Hp as [Hi Hj]; nodes i; nodes j | nodes i | nodes i]; cbn [time_at];
    match goal with |- exists j s, _ /\ _ /\ ?x = _ => let v := eval vm_compute in x in let w := eval vm_compute in (v / 2500) in exists w, 2 end; (split; [lia|]); (split; [lia|]); reflexivity.
Qed.

(** A file whose only tour is on time, and which is read as an instance without tour. *)
Definition words2 : list (list string) := [["2"]; ["0"; "20"]; ["20.3113"; "0"]; ["0"; "40.3113"]; ["0"; "40.3113"]].
Definition file2 : list string := map join words2.
Definition inst2 : tw_inst := mk_tw 2 (mk_mat 2 2 [0; 200000; 203113; 0]) [mk_window 0 403113; mk_window 0 403113].
Lemma case2 : file_denotes file2 inst2.
Proof.
  split; [|cbn; auto|reflexivity]. exists "2", [], [["0"; "20"]; ["20.3113"; "0"]], [["0"; "40.3113"]; ["0"; "40.3113"]], 1%nat.
  assert (denotes "0" 0) by (apply (denotes_int _ 0 1); reflexivity). assert (denotes "20" 200000) by (apply (denotes_int _ 20 2); reflexivity).
  assert (denotes "20.3113" 203113) by (apply (denotes_frac _ "20" 20 2 "3113" 3113 4); [reflexivity..|lia|reflexivity]). assert (denotes "40.3113" 403113) by (apply (denotes_frac _ "40" 40 2 "3113" 3113 4); [reflexivity..|lia|reflexivity]).
  split; [apply (check_lines_ok words2); reflexivity|]. split; [apply check_digits_ok; reflexivity|]. split; [reflexivity|]. split; [reflexivity|]. split; [intros i Hi; cbn in Hi; nodes i; reflexivity|]. split.
  - intros i j Hi Hj. cbn in Hi, Hj. nodes i; nodes j; assumption.
  - intros i Hi. cbn in Hi. nodes i; do 2 eexists; (split; [reflexivity|]); split; assumption.
Qed.
Definition inst2' : tw_inst := mk_tw 2 (mk_mat 2 2 [0; 200000; 203113; 0]) [mk_window 0 403112; mk_window 0 403112].
Lemma case2_read : tw_read true file2 = Some inst2' /\ tw_read false file2 = Some inst2'.
Proof. split; vm_compute; reflexivity. Qed.
Lemma case2_tour : feasible_tour inst2 [1%nat] 403113.
Proof. split; [apply Permutation_refl|reflexivity]. Qed.
Lemma case2_none l T : ~ feasible_tour inst2' l T.
Proof. intros [H1 H2]. cbn in H1. apply Permutation_sym, Permutation_length_1_inv in H1. subst l. discriminate H2. Qed.

(** Files that denote no instance, and are read nevertheless: a row with a word missing; a negative time. *)
Definition words3 : list (list string) := [["2"]; ["0"]; ["7"; "0"]; ["0"; "9"]; ["0"; "9"]].
Definition inst3 : tw_inst := mk_tw 2 (mk_mat 2 2 [0; 0; 70000; 0]) [mk_window 0 90000; mk_window 0 90000].
Definition words4 : list (list string) := [["2"]; ["0"; "-5"]; ["7"; "0"]; ["0"; "9"]; ["0"; "9"]].
Lemma case34_read debug : tw_read debug (map join words3) = Some inst3 /\ tw_read debug (map join words4) = Some inst3.
Proof. destruct debug; split; vm_compute; reflexivity. Qed.
Lemma two_nodes h n d : digits h (Z.of_nat n) d -> h = "2" -> n = 2%nat.
Proof. intros H ->. assert (Z.of_nat n = 2) by (apply (digits_fun "2" _ d 2 1); [exact H|apply check_digits_ok; reflexivity]). lia. Qed.
Lemma case3 I : ~ file_denotes (map join words3) I.
Proof.
  intros [(h & ex & D & W & d & Hc & Hh & LD & LW & Hrow & HD & HW) _ _]. apply content_eq in Hc.
  replace (map tokens (filter (fun s => negb (skipped (trim s))) (map join words3))) with words3 in Hc by (vm_compute; reflexivity). injection Hc as Eh Ex E.
  pose proof (two_nodes h _ d Hh Eh) as En. rewrite En in *. destruct D as [|r D]; [discriminate LD|]. injection E as -> _. specialize (Hrow 0%nat ltac:(lia)). discriminate Hrow.
Qed.
Lemma minus_decimal s p k : ~ decimal (String "-" s) p k.
Proof. intros H. destruct (decimal_first _ _ _ H) as (c & x & E & Hc). injection E as <- _. destruct Hc as [Hc|[Hc|Hc]]; [apply Hc; reflexivity|discriminate Hc..]. Qed.
Lemma case4 I : ~ file_denotes (map join words4) I.
Proof.
  intros [(h & ex & D & W & d & Hc & Hh & LD & LW & Hrow & HD & HW) _ _]. apply content_eq in Hc.
  replace (map tokens (filter (fun s => negb (skipped (trim s))) (map join words4))) with words4 in Hc by (vm_compute; reflexivity). injection Hc as Eh Ex E.
  pose proof (two_nodes h _ d Hh Eh) as En. rewrite En in *. destruct D as [|r D]; [discriminate LD|]. injection E as -> _. destruct (HD 0%nat 1%nat ltac:(lia) ltac:(lia)) as (p & k & _ & H & _). exact (minus_decimal _ _ _ H).
Qed.
Lemma case2_small p : in_inst inst2 p -> time_at inst2 p < 2 ^ 24.
Proof. destruct p as [i j|i|i]; intros Hp; cbn in Hp; [destruct Hp as [Hi Hj]; nodes i; nodes j | nodes i | nodes i]; vm_compute; reflexivity. Qed.

(** Files that denote no instance, and are read nevertheless: nothing at all, a number of nodes only, a time that is no number. *)
Definition inst0 (n : nat) : tw_inst := mk_tw n (mk_mat n n (repeat 0 (n * n))) [].
Lemma case0_read debug : tw_read debug [] = Some (inst0 0) /\ tw_read debug ["5"] = Some (inst0 5).
Proof. destruct debug; split; vm_compute; reflexivity. Qed.
Lemma case0 I : ~ file_denotes [] I /\ ~ file_denotes ["5"] I.
Proof.
  split; intros [(h & ex & D & W & d & Hc & Hh & LD & LW & Hrow & HD & HW) _ _]; apply content_eq in Hc; [discriminate Hc|].
  replace (map tokens (filter (fun s => negb (skipped (trim s))) ["5"])) with [["5"]] in Hc by (vm_compute; reflexivity). injection Hc as Eh Ex E.
  subst h. assert (En : Z.of_nat (tw_n I) = 5) by (apply (digits_fun "5" _ d 5 1); [exact Hh|apply check_digits_ok; reflexivity]).
  destruct D as [|r D]; [cbn in LD; lia|discriminate E].
Qed.
Definition words5 : list (list string) := [["2"]; ["0"; "NaN"]; ["7"; "0"]; ["0"; "inf"]; ["0"; "9"]].
Definition inst5 : tw_inst := mk_tw 2 (mk_mat 2 2 [0; 0; 70000; 0]) [mk_window 0 (2 ^ 64 - 1); mk_window 0 90000].
Lemma case5_read debug : tw_read debug (map join words5) = Some inst5.
Proof. destruct debug; vm_compute; reflexivity. Qed.
Lemma case5 I : ~ file_denotes (map join words5) I.
Proof.
  intros [(h & ex & D & W & d & Hc & Hh & LD & LW & Hrow & HD & HW) _ _]. apply content_eq in Hc.
  replace (map tokens (filter (fun s => negb (skipped (trim s))) (map join words5))) with words5 in Hc by (vm_compute; reflexivity). injection Hc as Eh Ex E.
  pose proof (two_nodes h _ d Hh Eh) as En. rewrite En in *. destruct D as [|r D]; [discriminate LD|]. injection E as -> _. destruct (HD 0%nat 1%nat ltac:(lia) ltac:(lia)) as (p & k & _ & H & _).
  destruct (decimal_first _ _ _ H) as (c & x & E & Hc). injection E as <- _. destruct Hc as [Hc|[Hc|Hc]]; [apply Hc; reflexivity|discriminate Hc..].
Qed.

(** A file with the other ways of writing numbers. *)
Definition words6 : list (list string) := [["2"]; ["0"; "1.9e1"]; ["+2.E0"; ".0"]; ["0"; "1E+3"]; ["0e-2"; "+500.0E-1"]].
Definition inst6 : tw_inst := mk_tw 2 (mk_mat 2 2 [0; 190000; 20000; 0]) [mk_window 0 10000000; mk_window 0 500000].
Ltac dg := apply check_digits_ok; reflexivity.
Lemma case6 : file_denotes (map join words6) inst6.
Proof.
  split; [|cbn; auto|reflexivity]. exists "2", [], [["0"; "1.9e1"]; ["+2.E0"; ".0"]], [["0"; "1E+3"]; ["0e-2"; "+500.0E-1"]], 1%nat.
  assert (denotes "0" 0) by (apply (denotes_int _ 0 1); reflexivity).
  assert (denotes "1.9e1" 190000).
  { exists ((1 * 10 ^ Z.of_nat 1 + 9) * 10 ^ 1), 1%nat. split; [lia|]. split; [|reflexivity]. apply dc_nosign. change "1.9e1" with ("1.9" ++ "e" ++ "1").
    apply (un_exp _ _ _ "e" "1" 1 1); [apply (pl_frac "1" 1 1 "9" 9 1); dg|cbn; auto|dg]. }
  assert (denotes "+2.E0" 20000).
  { exists (2 * 10 ^ 0), 0%nat. split; [lia|]. split; [|reflexivity]. change "+2.E0" with ("+" ++ ("2." ++ "E" ++ "0")). apply dc_plus, (un_exp _ _ _ "E" "0" 0 1); [apply (pl_point "2" 2 1); dg|cbn; auto|dg]. }
  assert (denotes ".0" 0).
  { exists 0, 1%nat. split; [lia|]. split; [|reflexivity]. apply dc_nosign, un_plain. change ".0" with ("." ++ "0"). apply pl_bare. dg. }
  assert (denotes "1E+3" 10000000).
  { exists (1 * 10 ^ 3), 0%nat. split; [lia|]. split; [|reflexivity]. change "1E+3" with ("1" ++ "E+" ++ "3"). apply dc_nosign, (un_exp _ _ _ "E+" "3" 3 1); [apply (pl_int "1" 1 1); dg|cbn; auto|dg]. }
  assert (denotes "0e-2" 0).
  { exists 0, (0 + Z.to_nat 2)%nat. split; [cbn; lia|]. split; [|reflexivity]. change "0e-2" with ("0" ++ "e-" ++ "2"). apply dc_nosign, (un_neg _ _ _ "e-" "2" 2 1); [apply (pl_int "0" 0 1); dg|cbn; auto|dg]. }
  assert (denotes "+500.0E-1" 500000).
  { exists (500 * 10 ^ Z.of_nat 1 + 0), (1 + Z.to_nat 1)%nat. split; [cbn; lia|]. split; [|reflexivity]. change "+500.0E-1" with ("+" ++ ("500.0" ++ "E-" ++ "1")).
    apply dc_plus, (un_neg _ _ _ "E-" "1" 1 1); [apply (pl_frac "500" 500 3 "0" 0 1); dg|cbn; auto|dg]. }
  split; [apply (check_lines_ok words6); reflexivity|]. split; [dg|]. split; [reflexivity|]. split; [reflexivity|]. split; [intros i Hi; cbn in Hi; nodes i; reflexivity|]. split.
  - intros i j Hi Hj. cbn in Hi, Hj. nodes i; nodes j; assumption.
  - intros i Hi. cbn in Hi. nodes i; do 2 eexists; (split; [reflexivity|]); split; assumption.
Qed.
Lemma case6_times : forall p, in_inst inst6 p -> exists j s, 0 <= j <= 26843 /\ 0 <= s <= 10 /\ time_at inst6 p = 625 * j * 2 ^ s.
Proof.
  intros [i j|i|i] Hp; cbn in Hp; [destruct Hp as [Hi Hj]; nodes i; nodes j | nodes i | nodes i]; cbn [time_at];
    match goal with |- exists j s, _ /\ _ /\ ?x = _ => let v := eval vm_compute in x in let w := eval vm_compute in (v / 2500) in exists w, 2 end; (split; [lia|]); (split; [lia|]); reflexivity.
Qed.
