(** C28: property theorems about vis_cal_bandpass, for every gain array (NaN entries allowed), every
    amplitude function and every averaging function. *)
From Coq Require Import ZifyBool ZifyNat.
From Verif Require Import Base Cplx VisWeights CalFlag CalFlagSpec CalFlagProofs Bandpass BandpassSpec BandpassProofs VisWeightsProps.
Open Scope nat_scope.
Ltac Zify.zify_post_hook ::= idtac.

(** bandpass * remainder = gain wherever the bandpass is not 0. *)
Theorem C28_factors : forall cabs avg gain freq_use tile_use cable auto_ratio bp rem p f t b g,
  vis_cal_bandpass cabs avg gain freq_use tile_use cable auto_ratio = Ok (bp, rem) ->
  p < d_pol gain -> used freq_use f ->
  at3 gain p f t = Some g -> at3 bp p f t = Some b -> b <> C0 ->
  exists r, at3 rem p f t = Some r /\ (b * r)%C = g.
Proof.
  intros cabs avg gain fu tu cable ar bp rem p f t b g H Hp U G B Nz.
  assert (Np : d_pol gain <> 0) by lia.
  destruct (bandpass_at _ _ _ _ _ _ _ _ _ Np H) as (_ & _ & _ & _ & _ & _ & _ & q & Q1 & Q2 & _).
  rewrite Q1 in B. destruct (q p f t) as [v|] eqn:E; [|discriminate]. injection B as <-.
  rewrite (Q2 p f t U), G, E. unfold over. destruct (Qc_eq_dec v 0) as [->|Nv]; [contradiction Nz; reflexivity|].
  eexists; split; [reflexivity|]. apply C_ext; cbn; field; auto.
Qed.
Print Assumptions C28_factors.

(** At a used frequency the bandpass is the average, over the tiles averaged with this one, of the
    normalised amplitudes; it is the same for all of them. *)
Theorem C28_value : forall cabs avg gain freq_use tile_use cable auto_ratio bp rem p f t freqs group,
  vis_cal_bandpass cabs avg gain freq_use tile_use cable auto_ratio = Ok (bp, rem) ->
  p < d_pol gain -> used freq_use f -> used tile_use t \/ cable = None ->
  in_use freq_use freqs -> group_of tile_use cable auto_ratio t group ->
  at3 bp p f t = option_map RtoC (bandpass_value cabs avg gain freqs group p f).
Proof.
  intros cabs avg gain fu tu cable ar bp rem p f t freqs group H Hp Uf Ut Hf Hg.
  assert (Np : d_pol gain <> 0) by lia.
  destruct (bandpass_at _ _ _ _ _ _ _ _ _ Np H) as (L & _ & _ & _ & _ & _ & _ & q & Q1 & _ & _ & Q4 & _).
  rewrite Q1, (Q4 p f t Uf Ut), single_value. rewrite (in_use_unique _ _ Hf).
  now rewrite (group_unique _ _ _ _ _ _ Hg (group_of_the tu cable ar t L)).
Qed.
Print Assumptions C28_value.

Theorem C28_shared : forall cabs avg gain freq_use tile_use cable auto_ratio bp rem p f t s,
  vis_cal_bandpass cabs avg gain freq_use tile_use cable auto_ratio = Ok (bp, rem) ->
  p < d_pol gain -> used freq_use f -> used tile_use t ->
  averaged_with tile_use cable auto_ratio t s -> at3 bp p f s = at3 bp p f t.
Proof.
  intros cabs avg gain fu tu cable ar bp rem p f t s H Hp Uf Ut A.
  assert (Np : d_pol gain <> 0) by lia.
  destruct (bandpass_at _ _ _ _ _ _ _ _ _ Np H) as (L & _ & _ & _ & _ & _ & _ & q & Q1 & _ & _ & Q4 & _).
  rewrite !Q1, (Q4 p f t Uf (or_introl Ut)), (Q4 p f s Uf (or_introl (proj1 A))). do 2 f_equal.
  apply (group_unique tu cable ar t); [|now apply group_of_the].
  destruct (group_of_the tu cable ar s L) as [S1 H1]. split; auto. intros x. rewrite H1.
  destruct A as [_ A]. unfold averaged_with. destruct cable as [cl|]; [|tauto].
  destruct A as [A|[A|A]]; [tauto|tauto|rewrite A; tauto].
Qed.
Print Assumptions C28_shared.

(** Elsewhere: unused frequencies have bandpass 0 and an unchanged remainder. With cable groups a flagged
    tile has bandpass 0 and its remainder is NaN or infinite at every used frequency. *)
Theorem C28_unused : forall cabs avg gain freq_use tile_use cable auto_ratio bp rem p f t,
  vis_cal_bandpass cabs avg gain freq_use tile_use cable auto_ratio = Ok (bp, rem) -> p < d_pol gain ->
  (~ used freq_use f -> at3 bp p f t = Some C0 /\ at3 rem p f t = at3 gain p f t)
  /\ (used freq_use f -> ~ used tile_use t -> cable <> None -> at3 bp p f t = Some C0 /\ at3 rem p f t = None).
Proof.
  intros cabs avg gain fu tu cable ar bp rem p f t H Hp.
  assert (Np : d_pol gain <> 0) by lia.
  destruct (bandpass_at _ _ _ _ _ _ _ _ _ Np H) as (_ & _ & _ & _ & _ & _ & _ & q & Q1 & Q2 & Q3 & _ & Q5).
  split.
  - intros U. destruct (Q3 p f t U) as [E1 E2]. rewrite Q1, E1. auto.
  - intros U V Nc. rewrite Q1, (Q2 p f t U), (Q5 p f t U V Nc). split; [reflexivity|].
    unfold over. destruct (at3 gain p f t); auto.
Qed.
Print Assumptions C28_unused.

(** A concrete run with two cable lengths: tiles 0 and 2 share one, tile 1 has the other, tile 3 is
    flagged. Average = arithmetic mean. *)
Definition demo_mean (l : list (option Qc)) : option Qc :=
  fold_right (fun x s => match x, s with Some a, Some b => Some (a + b)%Qc | _, _ => None end) (Some 0%Qc)
    (map (option_map (fun x => x / Q2Qc (inject_Z (Z.of_nat (length l))))%Qc) l).
Definition demo_gain : arr3 (option C) :=
  Arr3 1 2 4 (fun _ f t => Some (RtoC (Q2Qc (inject_Z (Z.of_nat (1 + f * t)))))).
Definition opt_is (x : option C) (q : Q) : bool :=
  match x with Some c => Ceqb c (RtoC (Q2Qc q)) | None => false end.

Example C28_demo : exists r, vis_cal_bandpass re demo_mean demo_gain [1; 1]%Z [1; 1; 1; 0]%Z (Some [90; 150; 90; 90]%Z) false = Ok r
  /\ (opt_is (at3 (fst r) 0 0 0) (3#4) && opt_is (at3 (fst r) 0 0 2) (3#4) && opt_is (at3 (fst r) 0 1 0) (5#4)
      && opt_is (at3 (fst r) 0 1 1) (4#3) && opt_is (at3 (snd r) 0 1 2) (12#5)
      && match at3 (snd r) 0 1 3 with None => true | Some _ => false end)%bool = true.
Proof. apply run_check. vm_compute. reflexivity. Qed.
