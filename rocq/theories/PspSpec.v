(** What the PSP example is about, stated with the data of the instance only. *)
From Verif Require Export Spec Psp.
Open Scope Z_scope.

(** The number of [s] in [0, t) with [f s]. *)
Definition count (f : nat -> bool) (t : nat) : Z := zsum (map (fun s => if f s then 1 else 0) (seq 0 t)).

Section Spec.
Variable D : psp_data.
Let T := pd_T D.
Let n := pd_n D.

(** One unit of item [i] is due at period [t]. *)
Definition due (i t : nat) : bool := 0 <? nth t (nth i (pd_dem D) []) 0.
Definition change (i j : nat) : Z := or_else 0 (mat_get (pd_change D) i j).
Definition stock (i : nat) : Z := nth i (pd_stock D) 0.

(** A plan says for each period which item is produced, if any. *)
Definition plan := list (option nat).
Definition produces (p : plan) (i t : nat) : bool :=
  match nth_error p t with Some (Some j) => Nat.eqb j i | _ => false end.

(** Units of item [i] produced, and due, before period [t]. *)
Definition produced (p : plan) (i t : nat) : Z := count (produces p i) t.
Definition demanded (i t : nat) : Z := count (due i) t.

(** A plan covers all periods; each unit is produced no later than it is due, and nothing is produced in excess. *)
Record feasible_plan (p : plan) : Prop := {
  fp_len : length p = T;
  fp_items : forall i, In (Some i) p -> (i < n)%nat;
  fp_total : forall i, (i < n)%nat -> produced p i T = demanded i T;
  fp_time : forall i t, (i < n)%nat -> (t <= T)%nat -> demanded i t <= produced p i t }.

(** The items in the order they are produced (idle periods left out) and what it costs to change from each to the next. *)
Fixpoint sequence (p : plan) : list nat :=
  match p with [] => [] | Some i :: q => i :: sequence q | None :: q => sequence q end.
Fixpoint changeovers (l : list nat) : Z :=
  match l with
  | i :: t => match t with j :: _ => change i j + changeovers t | [] => 0 end
  | [] => 0
  end.

(** Stocking costs are paid per unit and period: at the end of period [t - 1] the stock of item [i] is what has been produced
    and is not due yet. *)
Definition stocking (p : plan) : Z :=
  zsum (map (fun i => stock i * zsum (map (fun t => produced p i t - demanded i t) (seq 1 T))) (seq 0 n)).
Definition plan_cost (p : plan) : Z := changeovers (sequence p) + stocking p.

(** A best plan. *)
Definition cheapest (p : plan) : Prop := feasible_plan p /\ forall q, feasible_plan q -> plan_cost p <= plan_cost q.

(** The decisions that encode a plan: one per period, the last period first; -1 for an idle period. *)
Definition plan_value (x : option nat) : Z := match x with Some i => Z.of_nat i | None => -1 end.
Definition plan_decisions (p : plan) : list decision :=
  rev (map (fun tx => mk_dec (fst tx) (plan_value (snd tx))) (combine (seq 0 (length p)) p)).

(** A sensible instance ([M] bounds the costs). A [Set32] holds at most 32 items. *)
Record psp_ok (M : Z) : Prop := {
  po_T : (1 <= T)%nat;
  po_n : (n <= 32)%nat;
  po_change : mx_n (pd_change D) = n /\ mx_m (pd_change D) = n /\ length (mx_data (pd_change D)) = (n * n)%nat;
  po_stock : length (pd_stock D) = n;
  po_dem : length (pd_dem D) = n;
  po_rows : forall row, In row (pd_dem D) -> length row = T;
  po_M : 0 <= M;
  po_change_range : forall i j, (i < n)%nat -> (j < n)%nat -> 0 <= change i j <= M;
  po_stock_range : forall i, (i < n)%nat -> 0 <= stock i <= M;
  po_small : Z.of_nat T < 2 ^ 31;
  po_range : (Z.of_nat T + Z.of_nat n + 2) * ((Z.of_nat T + 1) * M) <= IMAX }.

(** The instance the program works with: sorting the edges may order ties in any way. *)
Definition loaded (I : psp) : Prop :=
  exists debug sort mst, (forall l, Permutation l (sort l)) /\ precompute_all_mst debug sort n (pd_change D) = Some mst /\ I = psp_build D mst.

(** Producing something else in between does not make a change cheaper. *)
Definition change_triangle : Prop :=
  forall i j k, (i < n)%nat -> (j < n)%nat -> (k < n)%nat -> change i k <= change i j + change j k.

(** Units of item [i] due up to the deadline [u] ([-1] for none). *)
Definition orders (i : nat) (u : Z) : Z := if u <? 0 then 0 else demanded i (S (Z.to_nat u)).
Definition deadline (s : psp_state) (i : nat) : Z := nth i (pt_u s) 0.

(** The states that may stand in layer [k], exact or merged: the deadline of an item is a period at which it is due, and
    what is due before the current period is still to be produced. *)
Record psp_layer (k : nat) (s : psp_state) : Prop := {
  pl_time : (k <= T)%nat /\ pt_time s = (T - k)%nat;
  pl_len : length (pt_u s) = n;
  pl_k : pt_k s = BOT \/ 0 <= pt_k s < Z.of_nat n;
  pl_deadline : forall i, (i < n)%nat ->
     deadline s i = -1 \/ (0 <= deadline s i < Z.of_nat T /\ due i (Z.to_nat (deadline s i)) = true);
  pl_orders : forall i, (i < n)%nat -> demanded i (pt_time s) <= orders i (deadline s i);
  pl_sum : (1 <= k)%nat -> zsum (map (fun i => orders i (deadline s i)) (seq 0 n)) <= Z.of_nat (pt_time s) }.

(** Layer [k] decides the last period that is not decided yet. *)
Definition psp_nv (k : nat) : nat := (T - 1 - k)%nat.
End Spec.
