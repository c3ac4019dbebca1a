(** PSP files: concrete ones. Nothing here models code of /repo. *)
From Verif Require Import Base Text TextSpec TextFacts TextCheck Psp PspSpec PspCases PspFile PspFileSpec PspFileProofs.
From Coq Require Import Lia ZArith List.
Import ListNotations.
Open Scope string_scope.
Open Scope Z_scope.

(** What a file says, computed. *)
Definition check_number (s : string) (v : Z) : bool := check_digits s v (String.length s) && (v <? 2 ^ 64).
Lemma check_number_ok s v : check_number s v = true -> says_number v s.
Proof. intros H. apply andb_prop in H as [H1 H2]. split; [exact (check_natural _ _ _ H1)|]. apply Z.ltb_lt, H2. Qed.
Fixpoint check_numbers (ts : list string) (row : list Z) : bool :=
  match ts, row with [], [] => true | t :: ts, v :: row => check_number t v && check_numbers ts row | _, _ => false end.
Lemma check_numbers_ok ts : forall row, check_numbers ts row = true -> Forall2 natural ts row /\ Forall (fun v => v < 2 ^ 64) row.
Proof.
  induction ts as [|t ts IH]; intros [|v row] H; try discriminate H; [split; constructor|]. cbn in H. apply andb_prop in H as [H1 H2]. apply check_number_ok in H1 as [H1 H1']. apply IH in H2 as [H2 H2']. split; constructor; assumption.
Qed.
Lemma check_row_says row s : check_numbers (tokens s) row = true -> says_row row s.
Proof. intros H. apply check_numbers_ok in H as [H1 H2]. exists (tokens s). split; [|auto]. apply (split_sound is_ws blank is_ws_blank s). Qed.
Fixpoint check_rows (rows : list (list Z)) (lines : list string) : bool :=
  match rows, lines with [], [] => true | r :: rows, s :: lines => check_numbers (tokens s) r && check_rows rows lines | _, _ => false end.
Lemma check_rows_ok rows : forall lines, check_rows rows lines = true -> Forall2 says_row rows lines.
Proof.
  induction rows as [|r rows IH]; intros [|s lines] H; try discriminate H; [constructor|]. cbn in H. apply andb_prop in H as [H1 H2]. constructor; [apply check_row_says, H1|apply IH, H2].
Qed.
Fixpoint check_blank (s : string) : bool := match s with "" => true | String c s' => is_ws c && check_blank s' end.
Lemma check_blank_ok s : check_blank s = true -> all blank s.
Proof. induction s as [|c s IH]; intros H; [exact Logic.I|]. cbn in H. apply andb_prop in H as [H1 H2]. split; [apply is_ws_blank, H1|apply IH, H2]. Qed.
Definition check_shape (D : psp_data) : bool :=
  let n := pd_n D in
  Nat.eqb (mx_n (pd_change D)) n && Nat.eqb (mx_m (pd_change D)) n && Nat.eqb (List.length (mx_data (pd_change D))) (n * n) && Nat.eqb (List.length (pd_stock D)) n &&
  Nat.eqb (List.length (pd_dem D)) n && forallb (fun row => Nat.eqb (List.length row) (pd_T D)) (pd_dem D).
Lemma check_shape_ok D : check_shape D = true -> psp_shape D.
Proof.
  unfold check_shape. intros H. apply andb_prop in H as [H H6]. apply andb_prop in H as [H H5]. apply andb_prop in H as [H H4]. apply andb_prop in H as [H H3]. apply andb_prop in H as [H1 H2].
  apply Nat.eqb_eq in H1, H2, H3, H4, H5. repeat split; try assumption. intros row Hr. rewrite forallb_forall in H6. apply Nat.eqb_eq, H6, Hr.
Qed.
Definition check_says (s1 s2 s3 : string) (changes : list string) (empty stocks : string) (demands : list string) (D : psp_data) (orders : Z) : bool :=
  check_shape D && check_number s1 (Z.of_nat (pd_T D)) && check_number s2 (Z.of_nat (pd_n D)) && check_number s3 orders && check_rows (rows_of (pd_change D)) changes && check_blank empty &&
  check_numbers (tokens stocks) (pd_stock D) && check_rows (pd_dem D) demands.
Lemma check_says_ok s1 s2 s3 any1 changes empty stocks any2 demands final D orders opt : check_says s1 s2 s3 changes empty stocks demands D orders = true -> says_end final opt ->
  psp_says (s1 :: s2 :: s3 :: any1 :: changes ++ empty :: stocks :: any2 :: demands ++ final)%list D orders opt.
Proof.
  unfold check_says. intros H Hend. apply andb_prop in H as [H H8]. apply andb_prop in H as [H H7]. apply andb_prop in H as [H H6]. apply andb_prop in H as [H H5]. apply andb_prop in H as [H H4]. apply andb_prop in H as [H H3]. apply andb_prop in H as [H1 H2].
  split; [apply check_shape_ok, H1|]. exists s1, s2, s3, any1, changes, empty, stocks, any2, demands, final. split; [reflexivity|].
  split; [apply check_number_ok, H2|]. split; [apply check_number_ok, H3|]. split; [apply check_number_ok, H4|]. split; [apply check_rows_ok, H5|]. split; [apply check_blank_ok, H6|].
  split; [apply check_row_says, H7|]. split; [apply check_rows_ok, H8|exact Hend].
Qed.

(** The first instance of PspCases.v, in the format of the files of resources/psp, followed by the optimum. *)
Definition pfile : list string := ["5"; "2"; "3"; ""; "0 2 "; " 3  0"; ""; "1 4 "; ""; "0 0 1 0 1 "; "0 0 0 1 0"; ""; ""; " 5 "].
Lemma pfile_says : psp_says pfile small 3 (Some 5).
Proof.
  apply (check_says_ok "5" "2" "3" "" ["0 2 "; " 3  0"] "" "1 4 " "" ["0 0 1 0 1 "; "0 0 0 1 0"] [""; ""; " 5 "]); [vm_compute; reflexivity|]. apply se_optimum; [exact Logic.I|]. apply check_row_says. vm_compute. reflexivity.
Qed.
Lemma pfile_read : psp_read true edge_sort pfile = Fine (psp_load small, 3, Some 5).
Proof. vm_compute. reflexivity. Qed.
Lemma pfile_case : (forall l, Permutation l (edge_sort l)) /\ psp_says pfile small 3 (Some 5) /\ psp_ok small 4 /\ change_triangle small /\
  psp_read true edge_sort pfile = Fine (psp_load small, 3, Some 5).
Proof. exact (conj edge_sort_perm (conj pfile_says (conj small_ok (conj small_triangle pfile_read)))). Qed.

(** Files that say nothing. *)
Lemma natural_same s v w : natural s v -> natural s w -> v = w.
Proof. intros [k H] [k' H']. exact (digits_fun _ _ _ _ _ H H'). Qed.
Lemma F2_len {A B} (R : A -> B -> Prop) l l' : Forall2 R l l' -> List.length l' = List.length l.
Proof. induction 1; cbn; congruence. Qed.
Lemma F2_nth {A B} (R : A -> B -> Prop) l l' a b : Forall2 R l l' -> forall i, (i < List.length l)%nat -> R (nth i l a) (nth i l' b).
Proof. induction 1 as [|x y l l' H H' IH]; intros i Hi; cbn in Hi; [lia|]. destruct i as [|i]; [exact H|]. apply IH. lia. Qed.
Lemma says_row_len row s : says_row row s -> List.length (tokens s) = List.length row.
Proof. intros (ts & Hs & Hts & _). rewrite (split_spaced ts s Hs). symmetry. exact (F2_len _ _ _ Hts). Qed.
Lemma says_len lines D orders opt : psp_says lines D orders opt -> let n := pd_n D in let T := pd_T D in
  natural (nth 0 lines "") (Z.of_nat T) /\ natural (nth 1 lines "") (Z.of_nat n) /\ (7 + 2 * n <= List.length lines)%nat /\
  List.length (tokens (nth (5 + n) lines "")) = n /\ forall i, (i < n)%nat -> List.length (tokens (nth (7 + n + i) lines "")) = T.
Proof.
  intros ((C1 & C2 & C3 & Ls & Ld & Lrow) & s1 & s2 & s3 & any1 & changes & empty & stocks & any2 & demands & final & -> & [N1 _] & [N2 _] & _ & Hch & He & Hst & Hdem & _) n T.
  assert (List.length changes = n) as Lc by (rewrite (F2_len _ _ _ Hch); unfold rows_of; rewrite map_length, seq_length; exact C1).
  assert (List.length demands = n) as Le by (rewrite (F2_len _ _ _ Hdem); exact Ld).
  split; [exact N1|]. split; [exact N2|]. split; [cbn [List.length]; rewrite app_length; cbn [List.length]; rewrite app_length; lia|]. split.
  - cbn [Nat.add nth]. rewrite app_nth2 by lia. replace (S n - List.length changes)%nat with 1%nat by lia. cbn [nth]. rewrite (says_row_len _ _ Hst). exact Ls.
  - intros i Hi. cbn [Nat.add nth]. rewrite app_nth2 by lia. replace (S (S (S (n + i))) - List.length changes)%nat with (S (S (S i))) by lia. cbn [nth]. rewrite app_nth1 by lia.
    rewrite (says_row_len (nth i (pd_dem D) [])); [apply Lrow, nth_In; rewrite Ld; exact Hi|]. apply (F2_nth says_row _ _ [] "" Hdem). rewrite Ld. exact Hi.
Qed.
(** The last row of demands is missing; a row of demands is too short; a stocking cost is missing. *)
Definition pshort1 : list string := ["3"; "2"; "2"; ""; "0 2"; "3 0"; ""; "1 4"; ""; "0 0 1"].
Definition pshort2 : list string := ["3"; "2"; "1"; ""; "0 2"; "3 0"; ""; "1 4"; ""; "0 0"; "0 1 0"].
Definition pshort3 : list string := ["3"; "2"; "2"; ""; "0 2"; "3 0"; ""; "1"; ""; "0 0 1"; "0 1 0"].
Lemma pshort_dims lines D orders opt : psp_says lines D orders opt -> nth 0 lines "" = "3" -> nth 1 lines "" = "2" -> pd_T D = 3%nat /\ pd_n D = 2%nat.
Proof.
  intros H E1 E2. apply says_len in H as (H1 & H2 & _). rewrite E1 in H1. rewrite E2 in H2.
  assert (Z.of_nat (pd_T D) = 3) by (apply (natural_same "3"); [exact H1|]; exists 1%nat; apply check_digits_ok; reflexivity).
  assert (Z.of_nat (pd_n D) = 2) by (apply (natural_same "2"); [exact H2|]; exists 1%nat; apply check_digits_ok; reflexivity). lia.
Qed.
Lemma pshort_not D orders opt : ~ psp_says pshort1 D orders opt /\ ~ psp_says pshort2 D orders opt /\ ~ psp_says pshort3 D orders opt.
Proof.
  repeat split; intros H; destruct (pshort_dims _ _ _ _ H eq_refl eq_refl) as [ET En]; apply says_len in H as (_ & _ & H3 & H4 & H5); cbv zeta in *; rewrite ET, En in *.
  - cbn in H3. lia.
  - specialize (H5 0%nat ltac:(lia)). vm_compute in H5. discriminate H5.
  - vm_compute in H4. discriminate H4.
Qed.
(** Too many rows of demands: a panic. *)
Definition plong : list string := ["3"; "2"; "3"; ""; "0 2"; "3 0"; ""; "1 4"; ""; "0 0 1"; "0 1 0"; "1 0 0"].
Lemma plong_not D orders opt : ~ psp_says plong D orders opt.
Proof.
  intros H. destruct (pshort_dims _ _ _ _ H eq_refl eq_refl) as [ET En]. destruct H as ((C1 & _ & _ & _ & Ld & _) & s1 & s2 & s3 & any1 & changes & empty & stocks & any2 & demands & final & E & _ & _ & _ & Hch & He & _ & Hdem & Hend).
  apply F2_len in Hch, Hdem. unfold rows_of in Hch. rewrite map_length, seq_length, C1, En in Hch. rewrite Ld, En in Hdem.
  destruct changes as [|c1 [|c2 [|]]]; try discriminate Hch. destruct demands as [|d1 [|d2 [|]]]; try discriminate Hdem. cbn in E. unfold plong in E. injection E as _ _ _ _ _ _ _ _ _ _ _ Ef. subst final.
  inversion Hend as [|e Hb| |]; subst. destruct Hb as [Hb _]. apply is_ws_blank in Hb. discriminate Hb.
Qed.
Lemma pshort_refutes : exists lines1 lines2 lines3 lines4,
  (forall D orders opt, ~ psp_says lines1 D orders opt /\ ~ psp_says lines2 D orders opt /\ ~ psp_says lines3 D orders opt /\ ~ psp_says lines4 D orders opt) /\ forall debug,
  (exists x, psp_read debug edge_sort lines1 = Fine x) /\
  (exists J o opt s, psp_read debug edge_sort lines2 = Fine (J, o, opt) /\ ps_init J debug = Some s /\ pt_u s = [0; 1]) /\
  (exists x, psp_read debug edge_sort lines3 = Fine x) /\
  psp_read debug edge_sort lines4 = Panics.
Proof.
  exists pshort1, pshort2, pshort3, plong. split; [intros D orders opt; destruct (pshort_not D orders opt) as (H1 & H2 & H3); pose proof (plong_not D orders opt); auto|].
  intros debug. split; [destruct debug; eexists; vm_compute; reflexivity|]. split; [|split; destruct debug; [eexists|eexists| |]; vm_compute; reflexivity].
  destruct debug; do 4 eexists; (split; [vm_compute; reflexivity|]); (split; vm_compute; reflexivity).
Qed.

(** Two units of the same item due in the same period count as one. *)
Definition double (d : Z) : psp_data := psp_make 3 1 [0] [1] [[0; 0; d]].
Definition pdouble (d : string) : list string := ["3"; "1"; "2"; ""; "0"; ""; "1"; ""; "0 0 " ++ d].
Lemma double_ok d : 0 <= d -> psp_ok (double d) 4.
Proof.
  intros Hd. assert (psp_ok (double 0) 4) as [H1 H2 H3 H4 H5 H6 H7 H8 H9 H10 H11] by (apply psp_checked; vm_compute; reflexivity). constructor; try assumption. intros row [<-|[]]. reflexivity.
Qed.
Lemma double_merges : exists lines1 lines2 D1 D2, psp_says lines1 D1 2 None /\ psp_ok D1 4 /\ psp_says lines2 D2 2 None /\ psp_ok D2 4 /\
  pd_dem D1 = [[0; 0; 2]] /\ pd_dem D2 = [[0; 0; 1]] /\
  forall debug, (exists x, psp_read debug edge_sort lines1 = Fine x) /\ psp_read debug edge_sort lines1 = psp_read debug edge_sort lines2.
Proof.
  exists (pdouble "2"), (pdouble "1"), (double 2), (double 1).
  split; [apply (check_says_ok "3" "1" "2" "" ["0"] "" "1" "" ["0 0 2"] []); [vm_compute; reflexivity|constructor]|]. split; [apply double_ok; lia|].
  split; [apply (check_says_ok "3" "1" "2" "" ["0"] "" "1" "" ["0 0 1"] []); [vm_compute; reflexivity|constructor]|]. split; [apply double_ok; lia|].
  split; [reflexivity|]. split; [reflexivity|]. intros debug. split; [destruct debug; eexists; vm_compute; reflexivity|destruct debug; vm_compute; reflexivity].
Qed.
