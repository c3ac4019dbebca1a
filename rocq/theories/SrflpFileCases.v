(** SRFLP files: concrete ones. Nothing here models code of /repo. *)
From Verif Require Import Base Text TextSpec TextFacts TextCheck Srflp SrflpSpec SrflpFlows SrflpFile SrflpFileSpec SrflpFileProofs.
From Coq Require Import Lia ZArith List.
Import ListNotations.
Open Scope string_scope.
Open Scope Z_scope.

(** What a file says, computed. *)
Definition blank_line (s : string) : bool := match trim_start s with "" => true | _ => false end.
Definition no_blank (t : string) : bool := match t with "" => false | _ => check_word t end.
Definition sr_plain (s : string) : bool := blank_line s || (negb (Nat.eqb (List.length (sr_tokens s)) 0) && forallb no_blank (sr_tokens s)).
Definition sr_table (lines : list string) : list (list string) := map sr_tokens (filter (fun s => negb (blank_line s)) lines).
Lemma blank_line_ok s : blank_line s = true -> all blank s.
Proof.
  unfold blank_line. induction s as [|c s IH]; intros H; [exact Logic.I|]. cbn in H. destruct (is_ws c) eqn:E; [|discriminate H]. split; [apply is_ws_blank, E|apply IH, H].
Qed.
Lemma no_blank_ok t : no_blank t = true -> word t.
Proof. unfold no_blank. destruct t; [discriminate|]. intros H. split; [discriminate|apply check_word_ok, H]. Qed.
Lemma sr_table_ok lines : forallb sr_plain lines = true -> sr_content lines (sr_table lines).
Proof.
  induction lines as [|s l IH]; intros H; [apply sc_nil|]. cbn in H. apply andb_prop in H as [H1 H2]. unfold sr_table. cbn [filter]. unfold sr_plain in H1. destruct (blank_line s) eqn:E.
  - apply sc_empty; [apply blank_line_ok, E|apply IH, H2].
  - cbn in H1. apply andb_prop in H1 as [H1 H3]. cbn [negb map]. pose proof (split_sound sr_sepb sr_sep sr_sepb_sep s) as Hp. fold (sr_tokens s) in Hp. destruct (sr_tokens s) as [|a ts]; [discriminate H1|].
    apply sc_line; [exact Hp| |apply IH, H2]. intros t Ht. apply no_blank_ok. rewrite forallb_forall in H3. apply H3, Ht.
Qed.
Definition check_integer (s : string) (v : Z) : bool :=
  match s with
  | String c t => if Ascii.eqb c "-" then check_digits t (- v) (String.length t) else if Ascii.eqb c "+" then check_digits t v (String.length t) else check_digits s v (String.length s)
  | _ => false
  end.
Lemma check_integer_ok s v : check_integer s v = true -> integer s v.
Proof.
  destruct s as [|c t]; [discriminate|]. unfold check_integer. destruct (Ascii.eqb_spec c "-") as [->|_]; [|destruct (Ascii.eqb_spec c "+") as [->|_]]; intros H.
  - rewrite <- (Z.opp_involutive v). apply int_minus. apply (check_natural _ _ _ H).
  - apply int_plus. apply (check_natural _ _ _ H).
  - apply int_nat. apply (check_natural _ _ _ H).
Qed.
(** A table of words against a list of numbers. *)
Definition check_row (ts : list string) (l : list Z) : bool := Nat.eqb (List.length ts) (List.length l) && forallb (fun tv => check_integer (fst tv) (snd tv)) (combine ts l).
Lemma check_row_ok ts l : check_row ts l = true -> List.length ts = List.length l /\ forall i, (i < List.length l)%nat -> integer (nth i ts "") (nth i l 0).
Proof.
  unfold check_row. intros H. apply andb_prop in H as [H1 H2]. apply Nat.eqb_eq in H1. split; [exact H1|]. intros i Hi. apply check_integer_ok.
  rewrite forallb_forall in H2. specialize (H2 (nth i ts "", nth i l 0)). apply H2. rewrite <- combine_nth by exact H1. apply nth_In. rewrite combine_length, H1, Nat.min_id. exact Hi.
Qed.
Fixpoint below (n : nat) (f : nat -> bool) : bool := match n with O => true | S k => f k && below k f end.
Lemma below_ok n f : below n f = true -> forall i, (i < n)%nat -> f i = true.
Proof. induction n as [|n IH]; intros H i Hi; [lia|]. cbn in H. apply andb_prop in H as [H1 H2]. destruct (Nat.eq_dec i n) as [->|]; [exact H1|]. apply IH; [exact H2|lia]. Qed.
Definition check_says (lines : list string) (n : nat) (lens : list Z) (a : matrix Z) : bool :=
  forallb sr_plain lines && Nat.eqb (mx_n a) n && Nat.eqb (mx_m a) n && Nat.eqb (List.length (mx_data a)) (n * n) && Nat.eqb (List.length lens) n &&
  match sr_table lines with
  | (h :: _) :: Ls :: D => check_digits h (Z.of_nat n) (String.length h) && check_row Ls lens && Nat.leb n (List.length D) &&
      below n (fun i => check_row (nth i D []) (map (entry a i) (seq 0 n)))
  | _ => false
  end.
Lemma check_says_ok lines n lens a : check_says lines n lens a = true -> sr_says lines n lens a.
Proof.
  unfold check_says. intros H. apply andb_prop in H as [H H6]. apply andb_prop in H as [H H5]. apply andb_prop in H as [H H4]. apply andb_prop in H as [H H3]. apply andb_prop in H as [H1 H2].
  apply Nat.eqb_eq in H2, H3, H4, H5. split; [split; [exact H2|split; [exact H3|exact H4]]|]. split; [exact H5|]. pose proof (sr_table_ok lines H1) as Hc.
  destruct (sr_table lines) as [|[|h ex] [|Ls D]]; try discriminate H6. apply andb_prop in H6 as [H6 H10]. apply andb_prop in H6 as [H6 H9]. apply andb_prop in H6 as [H7 H8]. apply Nat.leb_le in H9.
  exists h, ex, Ls, (firstn n D), (skipn n D). rewrite firstn_skipn. split; [exact Hc|]. split; [apply (check_natural _ _ _ H7)|]. apply check_row_ok in H8 as [H8 H8']. rewrite H5 in H8, H8'. split; [exact H8|]. split; [exact H8'|].
  assert (forall i, (i < n)%nat -> nth i (firstn n D) [] = nth i D []) as Hf.
  { intros i Hi. rewrite <- (firstn_skipn n D) at 2. rewrite app_nth1; [reflexivity|]. rewrite firstn_length. lia. }
  split; [rewrite firstn_length; lia|]. pose proof (below_ok _ _ H10) as Hr. cbv beta in Hr. split.
  - intros i Hi. rewrite Hf by exact Hi. destruct (check_row_ok _ _ (Hr i Hi)) as [E _]. rewrite map_length, seq_length in E. exact E.
  - intros i j Hi Hj. rewrite Hf by exact Hi. destruct (check_row_ok _ _ (Hr i Hi)) as [_ E]. rewrite map_length, seq_length in E. specialize (E j Hj).
    rewrite (nth_indep _ _ (entry a i 0)) in E by (rewrite map_length, seq_length; exact Hj). rewrite (map_nth (entry a i)), seq_nth in E by exact Hj. exact E.
Qed.

(** Three departments; the flows are not symmetric. *)
Definition tab : ascii := "009".
Definition sfile : list string := [" 3  "; "4,2, 6"; ""; "0 , 1 , 4"; String "2" (String tab (String "0" (String tab "+5"))); "4 0 0 "; "that is all"].
Definition sraw : matrix Z := mk_mat 3 3 [0; 1; 4; 2; 0; 5; 4; 0; 0].
Definition sinst : sr_inst := mk_sr 3 [4; 2; 6] (mk_mat 3 3 [0; 3; 4; 3; 0; 5; 4; 5; 0]).
Lemma sfile_says : sr_says sfile 3 [4; 2; 6] sraw.
Proof. apply check_says_ok. vm_compute. reflexivity. Qed.
Lemma sfile_small : sr_small 3 [4; 2; 6] sraw.
Proof.
  split; [reflexivity|]. unfold in_isize, IMIN, IMAX. split.
  - intros i Hi. do 3 (destruct i as [|i]; [cbn; lia|]). lia.
  - intros i j Hi Hj. do 3 (destruct i as [|i]; [do 3 (destruct j as [|j]; [vm_compute; intuition discriminate|]); lia|]). lia.
Qed.
Lemma sfile_means : sr_means 3 [4; 2; 6] sraw sinst.
Proof.
  split; [reflexivity|]. split; [reflexivity|]. split; [repeat split|]. intros i j Hi Hj. do 3 (destruct i as [|i]; [do 3 (destruct j as [|j]; [reflexivity|]); lia|]). lia.
Qed.
Lemma sfile_read : sr_read true sfile = Some sinst.
Proof. vm_compute. reflexivity. Qed.

(** A file without the last row, and one with a row that is too short, are read as if the missing flows were zero. *)
Definition short1 : list string := ["2"; "4 2"; "0 1"].
Definition short2 : list string := ["2"; "4 2"; "0"; "1 0"].
Definition short3 : list string := ["2"; "4"; "0 1"; "1 0"].
Lemma short_read debug : sr_read debug short1 = Some (mk_sr 2 [4; 2] (mk_mat 2 2 [0; 1; 1; 0])) /\ sr_read debug short2 = Some (mk_sr 2 [4; 2] (mk_mat 2 2 [0; 1; 1; 0])) /\
  sr_read debug short3 = Some (mk_sr 2 [4] (mk_mat 2 2 [0; 1; 1; 0])).
Proof. destruct debug; repeat split; vm_compute; reflexivity. Qed.
Lemma natural_fun s v w : natural s v -> natural s w -> v = w.
Proof. intros [k H] [k' H']. exact (digits_fun _ _ _ _ _ H H'). Qed.
Lemma short_two lines c n lens a : sr_says lines n lens a -> map (fun s => sr_tokens (trim s)) (filter (fun s => negb (String.eqb (trim s) "")) lines) = ["2"] :: c -> 
  n = 2%nat /\ exists Ls D rest, c = Ls :: (D ++ rest)%list /\ List.length Ls = 2%nat /\ List.length D = 2%nat /\ forall i, (i < 2)%nat -> List.length (nth i D []) = 2%nat.
Proof.
  intros (_ & _ & h & ex & Ls & D & rest & Hc & Hh & LL & _ & LD & Hrow & _) E. apply sr_content_eq in Hc. rewrite E in Hc. injection Hc as -> -> Hc.
  assert (Z.of_nat n = 2) as En by (apply (natural_fun "2"); [exact Hh|]; exists 1%nat; apply check_digits_ok; reflexivity). assert (n = 2%nat) as -> by lia. split; [reflexivity|]. exists Ls, D, rest. split; [symmetry; exact Hc|]. split; [exact LL|]. split; [exact LD|exact Hrow].
Qed.
Lemma short_not n lens a : ~ sr_says short1 n lens a /\ ~ sr_says short2 n lens a /\ ~ sr_says short3 n lens a.
Proof.
  repeat split; intros H; apply short_two with (c := ltac:(match type of H with sr_says ?l _ _ _ => let x := eval vm_compute in (tl (map (fun s => sr_tokens (trim s)) (filter (fun s => negb (String.eqb (trim s) "")) l))) in exact x end)) in H; try reflexivity;
    destruct H as (_ & Ls & D & rest & E & LL & LD & Hrow); injection E as <- E.
  - assert (List.length [["0"; "1"]] = List.length (D ++ rest)%list) as El by (rewrite <- E; reflexivity). rewrite app_length in El. cbn in El. lia.
  - destruct D as [|d D]; [discriminate LD|]. cbn in E. injection E as <- _. specialize (Hrow 0%nat ltac:(lia)). discriminate Hrow.
  - discriminate LL.
Qed.
Lemma short_refutes : exists lines1 lines2 lines3,
  (forall n lens a, ~ sr_says lines1 n lens a /\ ~ sr_says lines2 n lens a /\ ~ sr_says lines3 n lens a) /\ forall debug,
  (exists I, sr_read debug lines1 = Some I) /\ (exists I, sr_read debug lines2 = Some I) /\
  (exists I, sr_read debug lines3 = Some I /\ (List.length (sr_len I) < sr_n I)%nat).
Proof.
  exists short1, short2, short3. split; [exact short_not|]. intros debug. destruct (short_read debug) as (H1 & H2 & H3). split; [eexists; exact H1|]. split; [eexists; exact H2|].
  eexists. split; [exact H3|]. cbn. lia.
Qed.
Lemma sfile_case : sr_says sfile 3 [4; 2; 6] sraw /\ sr_small 3 [4; 2; 6] sraw /\ sr_means 3 [4; 2; 6] sraw sinst /\ sr_read true sfile = Some sinst /\
  (forall i, (i < 3)%nat -> 1 <= nth i [4; 2; 6] 0 <= 6) /\ (forall i j, (i < 3)%nat -> (j < 3)%nat -> 0 <= entry sraw i j <= 5) /\
  (Z.of_nat 3 + 2) * (Z.of_nat 3 * Z.of_nat 3 * (2 * 5) * 6) <= IMAX /\ Z.of_nat 3 * (2 * 5) * 6 < 2 ^ 23.
Proof.
  split; [exact sfile_says|]. split; [exact sfile_small|]. split; [exact sfile_means|]. split; [exact sfile_read|]. split; [|split; [|split]].
  - intros i Hi. do 3 (destruct i as [|i]; [cbn; lia|]). lia.
  - intros i j Hi Hj. do 3 (destruct i as [|i]; [do 3 (destruct j as [|j]; [vm_compute; intuition discriminate|]); lia|]). lia.
  - vm_compute. discriminate.
  - reflexivity.
Qed.

(** An empty file; flows whose sum does not fit. *)
Lemma empty_refutes : (forall n lens a, ~ sr_says [] n lens a) /\ forall debug, exists I, sr_read debug [] = Some I /\ sr_n I = 0%nat.
Proof.
  split; [|intros debug; exists (mk_sr 0 [] (mk_mat 0 0 [])); destruct debug; split; vm_compute; reflexivity].
  intros n lens a (_ & _ & h & ex & Ls & D & rest & Hc & _). apply sr_content_eq in Hc. discriminate Hc.
Qed.
Definition huge : list string := ["2"; "1 1"; "0 9223372036854775807"; "1 0"].
Definition hraw : matrix Z := mk_mat 2 2 [0; IMAX; 1; 0].
Lemma huge_refutes : exists lines n lens a, sr_says lines n lens a /\ (forall i, (i < n)%nat -> in_isize (nth i lens 0)) /\
  (forall i j, (i < n)%nat -> (j < n)%nat -> 0 <= entry a i j /\ in_isize (entry a i j)) /\
  sr_read true lines = None /\ exists I, sr_read false lines = Some I /\ entry (sr_flow I) 0 1 = IMIN.
Proof.
  exists huge, 2%nat, [1; 1], hraw. split; [apply check_says_ok; vm_compute; reflexivity|]. split; [|split; [|split; [vm_compute; reflexivity|]]].
  - intros i Hi. do 2 (destruct i as [|i]; [split; vm_compute; discriminate|]). lia.
  - intros i j Hi Hj. do 2 (destruct i as [|i]; [do 2 (destruct j as [|j]; [vm_compute; intuition discriminate|]); lia|]). lia.
  - exists (mk_sr 2 [1; 1] (mk_mat 2 2 [0; IMIN; IMIN; 0])). split; vm_compute; reflexivity.
Qed.
