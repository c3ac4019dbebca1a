(** The reading of SRFLP files. Nothing here models code of /repo. *)
From Verif Require Import Base Text TextSpec TextFacts ReadRows MatrixFacts Srflp SrflpSpec SrflpFlows SrflpFile SrflpFileSpec.
From Coq Require Import Lia ZArith List.
Import ListNotations.
Open Scope string_scope.
Open Scope Z_scope.

Lemma sr_sepb_sep c : sr_sepb c = true <-> sr_sep c.
Proof.
  unfold sr_sepb, sr_sep. destruct (Ascii.eqb_spec c " "); [subst; cbn; tauto|]. destruct (Ascii.eqb_spec c ","); [subst; cbn; tauto|]. destruct (Ascii.eqb_spec c "009"); [subst; cbn; tauto|].
  cbn. split; [discriminate|]. intros [H|[H|[H|[]]]]; congruence.
Qed.
(** A line by its words. *)
Definition sr_step (r : sr_reader) (ts : list string) : option sr_reader :=
  do r <- (if sd_lc r =? 0 then
             match ts with [] => None | t :: _ => do n <- parse_usize t; Some (mk_srd (sd_lc r) n (sd_len r) (mat_new (Z.to_nat n) (Z.to_nat n) 0)) end
           else if sd_lc r =? 1 then
             do l <- ofold (fun l t => do x <- parse_isize t; Some (l ++ [x])%list) ts (sd_len r); Some (mk_srd (sd_lc r) (sd_nb r) l (sd_flow r))
           else if (2 <=? sd_lc r) && (sd_lc r <=? sd_nb r + 1) then
             do m <- ofold (fun m jt => do x <- parse_isize (snd jt); mat_set m (Z.to_nat (sd_lc r - 2)) (fst jt) x) (combine (seq 0 (List.length ts)) ts) (sd_flow r);
             Some (mk_srd (sd_lc r) (sd_nb r) (sd_len r) m)
           else Some r);
  Some (mk_srd (sd_lc r + 1) (sd_nb r) (sd_len r) (sd_flow r)).
Lemma sr_words s a ts : parted sr_sep (a :: ts) s -> (forall t, In t (a :: ts) -> word t) -> trim s <> "" /\ sr_tokens (trim s) = a :: ts.
Proof.
  intros H Hw. split.
  - destruct (parted_head sr_sep a ts s H) as (w & c & x & y & _ & _ & -> & ->). apply trim_keeps. destruct (Hw (String c x) (or_introl eq_refl)) as [_ [Hc _]]. exact Hc.
  - unfold sr_tokens. rewrite split_trim; [apply (split_parted _ _ sr_sepb_sep), H|].
    apply (parted_all sr_sep _ (a :: ts) s H).
    + intros c Hc _. apply sr_sepb_sep, Hc.
    + intros t Ht. destruct (Hw t Ht) as [_ Hb]. apply (all_imp (fun c => ~ blank c)); [|exact Hb]. intros c Hc Hc'. apply is_ws_blank in Hc'. contradiction.
Qed.
Lemma sr_line_step r s a ts : parted sr_sep (a :: ts) s -> (forall t, In t (a :: ts) -> word t) -> sr_line r s = sr_step r (a :: ts).
Proof.
  intros H Hw. destruct (sr_words s a ts H Hw) as [H1 H2]. unfold sr_line. destruct (trim s) as [|c x] eqn:E; [contradiction H1; reflexivity|].
  unfold sr_step, sr_header, sr_lengths, sr_row. rewrite H2. reflexivity.
Qed.
Lemma sr_content_fold lines c : sr_content lines c -> forall r, ofold sr_line lines r = ofold sr_step c r.
Proof.
  induction 1 as [|s l c Hs _ IH|s a ts l c Hs Hw _ IH]; intros r; [reflexivity| |]; cbn [ofold].
  - unfold sr_line at 1. rewrite (trim_blank _ Hs). apply IH.
  - rewrite (sr_line_step r s a ts Hs Hw). destruct (sr_step r (a :: ts)); [apply IH|reflexivity].
Qed.
Lemma sr_content_eq lines c : sr_content lines c -> c = map (fun s => sr_tokens (trim s)) (filter (fun s => negb (String.eqb (trim s) "")) lines).
Proof.
  induction 1 as [|s l c Hs _ IH|s a ts l c Hs Hw _ IH]; [reflexivity| |]; cbn [filter].
  - rewrite (trim_blank _ Hs). exact IH.
  - destruct (sr_words s a ts Hs Hw) as [H1 H2]. destruct (String.eqb_spec (trim s) ""); [contradiction|]. cbn [negb map]. rewrite H2, <- IH. reflexivity.
Qed.

Lemma lengths_fold n (lens : list Z) : (forall i, (i < n)%nat -> in_isize (nth i lens 0)) -> forall ts k acc, (k + List.length ts <= n)%nat ->
  (forall i, (i < List.length ts)%nat -> integer (nth i ts "") (nth (k + i) lens 0)) ->
  ofold (fun l t => do x <- parse_isize t; Some (l ++ [x])%list) ts acc = Some (acc ++ map (fun i => nth (k + i) lens 0) (seq 0 (List.length ts)))%list.
Proof.
  intros Hs. induction ts as [|t ts IH]; intros k acc Hk H; [cbn; rewrite app_nil_r; reflexivity|]. cbn [List.length] in *. cbn [ofold].
  pose proof (H 0%nat ltac:(lia)) as H0. cbn [nth] in H0. rewrite (parse_isize_integer t _ H0) by (apply Hs; lia). cbn [obind].
  rewrite (IH (S k)); [|lia|intros i Hi; specialize (H (S i) ltac:(lia)); cbn [nth] in H; rewrite Nat.add_succ_comm; exact H].
  rewrite <- app_assoc. cbn [seq map app]. rewrite Nat.add_0_r, <- seq_shift, map_map. do 3 f_equal. apply map_ext. intros i. f_equal. lia.
Qed.
Lemma sr_rows_fold n lens (g : nat -> nat -> Z) : (forall i j, (i < n)%nat -> (j < n)%nat -> in_isize (g i j)) -> forall D k m, rect n n m -> (k + List.length D <= n)%nat ->
  (forall i, (i < List.length D)%nat -> List.length (nth i D []) = n) ->
  (forall i j, (i < List.length D)%nat -> (j < n)%nat -> integer (nth j (nth i D []) "") (g (k + i)%nat j)) ->
  (forall i j, (i < k)%nat -> (j < n)%nat -> mat_get m i j = Some (g i j)) ->
  exists m', ofold sr_step D (mk_srd (Z.of_nat k + 2) (Z.of_nat n) lens m) = Some (mk_srd (Z.of_nat (k + List.length D) + 2) (Z.of_nat n) lens m') /\
    rect n n m' /\ (forall i j, (i < k + List.length D)%nat -> (j < n)%nat -> mat_get m' i j = Some (g i j)).
Proof.
  intros Hg. induction D as [|ts D IH]; intros k m Hs Hl Hlen Hr Hk.
  - exists m. cbn. rewrite Nat.add_0_r. auto.
  - cbn in Hl. pose proof (Hlen 0%nat ltac:(cbn; lia)) as L0. cbn in L0.
    destruct (row_fold n n parse_isize k (g k) ts ltac:(lia) 0 m Hs ltac:(lia)) as (m1 & E & S1 & A & B).
    { intros q Hq. specialize (Hr 0%nat q ltac:(cbn; lia) ltac:(lia)). cbn in Hr. rewrite Nat.add_0_r in Hr. apply parse_isize_integer; [exact Hr|]. apply Hg; lia. }
    destruct (IH (S k) m1 S1 ltac:(lia)) as (m' & E' & S' & G').
    { intros i Hi. apply (Hlen (S i)). cbn. lia. }
    { intros i j Hi Hj. specialize (Hr (S i) j ltac:(cbn; lia) Hj). cbn [nth] in Hr. rewrite Nat.add_succ_comm. exact Hr. }
    { intros i j Hi Hj. destruct (Nat.eq_dec i k) as [->|Hne]; [apply A; lia|]. rewrite B by lia. apply Hk; lia. }
    exists m'. cbn [ofold]. unfold sr_step at 1. cbn [sd_lc sd_nb sd_len sd_flow].
    destruct (Z.eqb_spec (Z.of_nat k + 2) 0); [lia|]. destruct (Z.eqb_spec (Z.of_nat k + 2) 1); [lia|].
    destruct (Z.leb_spec 2 (Z.of_nat k + 2)); [|lia]. destruct (Z.leb_spec (Z.of_nat k + 2) (Z.of_nat n + 1)); [|lia]. cbn [andb].
    replace (Z.to_nat (Z.of_nat k + 2 - 2)) with k by lia. rewrite E. cbn [obind sd_lc sd_nb sd_len sd_flow].
    replace (Z.of_nat k + 2 + 1) with (Z.of_nat (S k) + 2) by lia. rewrite E'. split; [do 2 f_equal; cbn [List.length]; lia|]. split; [exact S'|]. intros i j Hi Hj. apply G'; [cbn in Hi; lia|exact Hj].
Qed.
(** What follows is not looked at. *)
Lemma sr_rest_fold rest : forall lc n lens m, n + 1 < lc -> 2 <= lc -> exists lc', ofold sr_step rest (mk_srd lc n lens m) = Some (mk_srd lc' n lens m).
Proof.
  induction rest as [|ts rest IH]; intros lc n lens m H1 H2; [exists lc; reflexivity|]. cbn [ofold]. unfold sr_step at 1. cbn [sd_lc sd_nb sd_len sd_flow].
  destruct (Z.eqb_spec lc 0); [lia|]. destruct (Z.eqb_spec lc 1); [lia|]. destruct (Z.leb_spec lc (n + 1)); [lia|]. rewrite andb_false_r. cbn [obind sd_lc sd_nb sd_len sd_flow]. apply IH; lia.
Qed.
Lemma square_rect n m : square n m <-> rect n n m.
Proof. unfold square, rect, mat_wf. split; [intros (H1 & H2 & H3)|intros (H1 & H2 & H3)]; repeat split; try assumption; rewrite ?H1, ?H2, ?H3 in *; try assumption; congruence. Qed.

Theorem sr_file_read : forall debug lines n lens a, sr_says lines n lens a -> sr_small n lens a -> exists I, sr_read debug lines = Some I /\ sr_means n lens a I.
Proof.
  intros debug lines n lens a (Ha & Hl & h & ex & Ls & D & rest & Hc & Hh & LL & HL & LD & Hrow & HD) (Sn & Sl & Sa). unfold sr_read. rewrite (sr_content_fold _ _ Hc).
  cbn [ofold]. unfold sr_step at 1. cbn [sd_lc sd_nb sd_len sd_flow Z.eqb]. rewrite (parse_usize_natural h _ Hh Sn). cbn [obind sd_lc sd_nb sd_len sd_flow]. rewrite Nat2Z.id.
  unfold sr_step at 1. cbn [sd_lc sd_nb sd_len sd_flow]. change (0 + 1 =? 0) with false. change (0 + 1 =? 1) with true. cbv iota.
  rewrite (lengths_fold n lens Sl Ls 0 [] ltac:(lia)) by (rewrite LL; exact HL). cbn [obind sd_lc sd_nb sd_len sd_flow app].
  replace (map (fun i => nth (0 + i) lens 0) (seq 0 (List.length Ls))) with lens.
  2: { rewrite LL. cbn [Nat.add]. apply (nth_ext _ _ 0 0); [rewrite map_length, seq_length; exact Hl|]. intros i Hi. rewrite Hl in Hi.
       rewrite (nth_indep (map _ _) 0 ((fun i => nth i lens 0) 0%nat)) by (rewrite map_length, seq_length; exact Hi). rewrite (map_nth (fun i => nth i lens 0)), seq_nth by exact Hi. reflexivity. }
  rewrite ofold_app. destruct (sr_rows_fold n lens (entry a) (fun i j Hi Hj => proj1 (Sa i j Hi Hj)) D 0 (mat_new n n 0) (rect_new n n) ltac:(lia)) as (m & E & Sm & G); [rewrite LD; exact Hrow|rewrite LD; exact HD|intros; lia|].
  change (0 + 1 + 1) with (Z.of_nat 0 + 2). rewrite E. cbn [obind].
  destruct (sr_rest_fold rest (Z.of_nat (0 + List.length D) + 2) (Z.of_nat n) lens m ltac:(lia) ltac:(lia)) as [lc' ->]. cbn [obind sd_lc sd_nb sd_len sd_flow]. rewrite Nat2Z.id.
  apply square_rect in Ha as Ha'.
  assert (m = a) as ->. { apply (rect_ext n n); [exact Sm|exact Ha'|]. intros i j Hi Hj. rewrite G by lia. symmetry. apply (entry_some n); assumption. }
  destruct (flows_folded debug n a Ha) as (m' & E' & Sm' & V). { intros i j Hi Hj _. apply Sa; assumption. }
  rewrite E'. cbn [obind]. eexists. split; [reflexivity|]. split; [reflexivity|]. split; [reflexivity|]. cbn [sr_flow]. split; [exact Sm'|]. intros i j Hi Hj. apply V; assumption.
Qed.
(** The instance is determined. *)
Lemma sr_means_unique n lens a I J : sr_means n lens a I -> sr_means n lens a J -> I = J.
Proof.
  intros (H1 & H2 & H3 & H4) (K1 & K2 & K3 & K4). destruct I as [nI lI fI], J as [nJ lJ fJ]. cbn in *. subst nI nJ lI lJ. f_equal.
  apply (rect_ext n n); [apply square_rect, H3|apply square_rect, K3|]. intros i j Hi Hj. rewrite (entry_some n fI i j H3 Hi Hj), (entry_some n fJ i j K3 Hi Hj), H4, K4 by assumption. reflexivity.
Qed.
Theorem sr_file_exact : forall debug lines n lens a I, sr_says lines n lens a -> sr_small n lens a -> sr_means n lens a I -> sr_read debug lines = Some I.
Proof. intros debug lines n lens a I H1 H2 H3. destruct (sr_file_read debug lines n lens a H1 H2) as (J & E & HJ). rewrite E, (sr_means_unique _ _ _ _ _ H3 HJ). reflexivity. Qed.
