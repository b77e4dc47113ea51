(** * Properties of the socket under relaxed atomics: C93 *)

From Coq Require Import Lia.
From Verif Require Import Model.WeakM Spec.Weak Proofs.TraceP Proofs.WeakP.

(** ** C93: the relaxed increments *)

(** Every execution the memory model allows is an interleaving: its events can be listed one
    after the other, keeping to happens-before and to the order of the increments, so that
    running them in that order gives each of them what it gave. *)
Theorem C93_interleaving : forall (S E : Type) (cn : connection S E) bd chunk x c0,
  allowed cn bd chunk x c0 ->
  exists l,
    linearises (wk_size x) (fun i j => wk_hb x i j = true \/
      (wk_touches bd x i PCounter /\ wk_touches bd x j PCounter /\ wk_mo x i j = true)) l /\
    fst (exec cn bd chunk (map (wk_act x) l) c0) = flat_map (wk_out cn bd chunk x) l.
Proof. intros S E cn bd chunk x c0 [H1 H2]. exact (interleaving cn bd chunk x c0 H1 H2). Qed.
Print Assumptions C93_interleaving.

(** So what is proved of all interleavings holds, the ids for instance: up to [2 ^ 30] draws
    no two calls get the same one. *)
Theorem C93_distinct : forall (S E : Type) (cn : connection S E) bd chunk x init st0 conn0,
  allowed cn bd chunk x (config_init init st0 conn0) ->
  let out := wk_out cn bd chunk x in
  N.of_nat (List.length (flat_map (fun i => drawn (out i)) (seq 0 (wk_size x)))) <= 2 ^ 30 ->
  NoDup (flat_map (fun i => alloc_ids (out i)) (seq 0 (wk_size x))).
Proof. exact (@weak_ids). Qed.
Print Assumptions C93_distinct.

Definition wk_conn : connection unit nat := Connection (fun s _ => (s, None)) (fun s _ => (s, None)) (fun s => s).
Definition wk_p : payload := Payload None (Some [n2b 7]).
(** Threads 1 (events 0-2) and 2 (events 3-5) each get an id; nothing orders one thread with
    the other but the increments, and thread 2's comes first. *)
Definition wk_two : weak (S := unit) :=
  Weak 6
    (fun i => match i with 0 => Call 1 wk_p | 3 => Call 2 wk_p | 1 | 2 => Run 1 | _ => Run 2 end)%nat
    (fun i => match i with
              | 0 | 3 => Config 99 (fun _ => true) tt (fun _ => Idle)
              | 1 => Config 3 (fun _ => true) tt (fun _ => Drawing wk_p)
              | 2 => Config 99 (fun _ => false) tt (fun _ => Checking wk_p 3)
              | 4 => Config 1 (fun _ => true) tt (fun _ => Drawing wk_p)
              | _ => Config 99 (fun _ => false) tt (fun _ => Checking wk_p 1)
              end)%nat
    (fun i j => Nat.ltb i j && (Nat.leb 3 i || Nat.ltb j 3))
    (fun i j => Nat.eqb i 4 && Nat.eqb j 1).
Definition wk_c0 : config := config_init 1 (fun _ => false) tt.

Ltac cases_below H :=
  match type of H with
  | (?i < 0)%nat => exfalso; lia
  | (?i < _)%nat => destruct i as [|i]; [clear H|apply Nat.succ_lt_mono in H; cases_below H]
  end.

Ltac each_writer :=
  let k := fresh "k" in let Hk := fresh "Hk" in let Hw := fresh "Hw" in let Hb := fresh "Hb" in
  intros k [Hk [Hw _]] Hb; cbn [wk_size] in Hk; cases_below Hk; cbn in Hw, Hb;
  try discriminate Hb; repeat destruct Hw as [Hw|Hw]; try discriminate Hw; auto.
Ltac from j :=
  left; exists j; split; [split; [cbn; lia|split; [cbn; auto|exact I]]|];
  split; [reflexivity|]; split; [each_writer|reflexivity].
Ltac from_start := right; split; [each_writer|reflexivity].
Ltac pick H := repeat destruct H as [H|H]; try discriminate H; subst; try contradiction.

Example C93_example : allowed wk_conn Debug None wk_two wk_c0 /\
  flat_map (wk_out wk_conn Debug None wk_two) (seq 0 6) =
    [EvDraw 1 3; EvAlloc 1 3 wk_p; EvDraw 2 1; EvAlloc 2 1 wk_p] /\
  fst (exec wk_conn Debug None (map (wk_act wk_two) [0; 3; 4; 1; 2; 5]%nat) wk_c0) =
    [EvDraw 2 1; EvDraw 1 3; EvAlloc 1 3 wk_p; EvAlloc 2 1 wk_p].
Proof.
  split; [|split; reflexivity]. split; [split|].
  - intros i. cbn [wk_hb wk_two]. now rewrite Nat.ltb_irrefl.
  - intros i j k. cbn [wk_hb wk_two]. rewrite !andb_true_iff, !orb_true_iff, !Nat.ltb_lt, !Nat.leb_le. lia.
  - intros i. cbn. destruct (Nat.eqb_spec i 4) as [->|]; reflexivity.
  - intros i j k. cbn [wk_mo wk_two]. rewrite !andb_true_iff, !Nat.eqb_eq. lia.
  - intros l i j [Hi Hti] [Hj [Htj _]] Hne. cbn [wk_size wk_two] in *.
    cases_below Hi; cases_below Hj; try congruence; cbn in Hti, Htj;
      repeat match goal with H : _ \/ _ |- _ => destruct H end; subst l; try discriminate; cbn; auto.
  - intros i l [Hi Hti]. cbn [wk_size wk_two] in *. cases_below Hi; cbn in Hti; pick Hti.
    + from_start.
    + from 0%nat.
    + from 4%nat.
    + from 1%nat.
    + from_start.
    + from_start.
    + from 3%nat.
    + from_start.
    + from 4%nat.
    + from_start.
  - intros i j [Hi Hti] [Hj Htj]. cbn [wk_size wk_two] in *.
    cases_below Hi; cbn in Hti; pick Hti; cases_below Hj; cbn in Htj; pick Htj; cbn; congruence.
Qed.

(** Coherence is needed, and is all that is used of the increments: with the modification
    order against the program order of one thread there are traces that no interleaving has. *)
Definition wk_bad : weak (S := unit) :=
  Weak 4
    (fun i => match i with 0 => Call 1 wk_p | _ => Run 1 end)%nat
    (fun i => match i with
              | 0 => Config 99 (fun _ => false) tt (fun _ => Idle)
              | 1 => Config 3 (fun _ => false) tt (fun _ => Drawing wk_p)
              | 2 => Config 99 (fun _ => true) tt (fun _ => Checking wk_p 3)
              | _ => Config 1 (fun _ => false) tt (fun _ => Drawing wk_p)
              end)%nat
    Nat.ltb (fun i j => Nat.eqb i 3 && Nat.eqb j 1).
Theorem C93_coherence_needed : exists (x : weak (S := unit)) c0,
  race_free wk_conn Debug None x c0 /\
  (forall i j, (i < j)%nat -> (j < wk_size x)%nat -> wk_hb x i j = true) /\
  forall acts, fst (exec wk_conn Debug None acts c0) <> flat_map (wk_out wk_conn Debug None x) (seq 0 (wk_size x)).
Proof.
  exists wk_bad, (config_init 1 (fun k => k =? 3) tt). split; [split|split].
  - intros i. apply Nat.ltb_irrefl.
  - intros i j k. cbn [wk_hb wk_bad]. rewrite !Nat.ltb_lt. lia.
  - intros i. cbn. destruct (Nat.eqb_spec i 3) as [->|]; reflexivity.
  - intros i j k. cbn [wk_mo wk_bad]. rewrite !andb_true_iff, !Nat.eqb_eq. lia.
  - intros l i j [Hi Hti] [Hj [Htj _]] Hne. cbn [wk_size wk_bad] in *.
    cases_below Hi; cases_below Hj; try congruence; cbn in Hti, Htj;
      repeat match goal with H : _ \/ _ |- _ => destruct H end; subst l; try discriminate; cbn; auto.
  - intros i l [Hi Hti]. cbn [wk_size wk_bad] in *. cases_below Hi; cbn in Hti; pick Hti.
    + from_start.
    + from 0%nat.
    + from 3%nat.
    + from 1%nat.
    + from_start.
    + from 2%nat.
    + from_start.
  - intros i j Hij _. now apply Nat.ltb_lt.
  - intros acts H. assert (Hd := nth_draw wk_conn Debug None 1 (fun k => k =? 3) tt acts 0 3).
    rewrite H in Hd. specialize (Hd eq_refl). discriminate Hd.
Qed.
Print Assumptions C93_coherence_needed.
