(** C85, C86: the transfer of a bandpass from a calfits file. *)
From Coq Require Import String.
From Verif Require Import Base PyIndex Cplx NpArr VisWeights Obs TransferBp TransferBpSpec TransferBpProofs.
Import ListNotations.
Open Scope nat_scope.
Open Scope list_scope.

Section C85.
  (** Whatever the interpolation to finer channels and the choice of a pointing do. *)
  Variable finer : ndarr Q -> result (ndarr Q).
  Variable pointing : Q -> option nat.
  Local Notation transfer := (transfer_bandpass finer pointing).

  (** No file at all can be transferred into an observation whose number of tiles is not its number of frequencies: the
      bandpass is indexed by tile and frequency, the gains by frequency and tile. *)
Theorem C85_axes_refuted : forall file o i gain bp rest,
    gains_of o gain -> transfer file o i gain = Ok (Some (bp, rest)) -> b_tile o = b_freq o.
  Proof.
    intros [f|] o i gain bp rest (GP & GF & GT) E; [|discriminate]. unfold transfer_bandpass in E.
    apply bind_some in E as (g & R & E). apply read_shape in R. apply bind_inv in E as (r & M & E). inversion E; subst.
    unfold remainder in M. rewrite R in M. rewrite GF, GT in M.
    destruct (Nat.eq_dec (b_tile o) (b_freq o)) as [Y|N]; [exact Y|exfalso].
    destruct (bdim (d_pol gain) _); [|discriminate]. unfold bdim in M.
    destruct (Nat.eqb_spec (b_freq o) (b_tile o)); [congruence|]. destruct (Nat.eqb_spec (b_tile o) (b_freq o)); [congruence|].
    destruct (Nat.eqb_spec (b_freq o) 1) as [F1|F1].
    - destruct (Nat.eqb_spec (b_tile o) 1) as [T1|T1]; [congruence|]. rewrite F1 in M.
      destruct (Nat.eqb_spec (b_tile o) 1); [congruence|]. rewrite andb_false_r in M. discriminate.
    - destruct (Nat.eqb_spec (b_tile o) 1) as [T1|T1]; [|discriminate]. rewrite T1 in M.
      destruct (Nat.eqb_spec (b_freq o) 1); [congruence|]. rewrite andb_false_r in M. discriminate.
  Qed.

  (** Nor into one with two or more polarisations and three or more tiles, even from a file with the same tiles, channels
      and polarisations. *)
Theorem C85_polarisations_refuted : forall f o i gain r n_data pols,
    calibration f (b_tile o) (b_freq o) 1 pols n_data -> same_width f o -> 2 <= n_data ->
    2 <= b_pol o -> 3 <= b_tile o -> transfer (Some f) o i gain <> Ok (Some r).
  Proof.
    intros f o i gain [bp rest] nd pols CAL (w & W & SW) ND P T E. unfold transfer_bandpass in E.
    apply bind_some in E as (g & R & _).
    destruct (read_standard finer pointing f o i _ _ _ _ _ CAL) as (it & w' & or & st & td & ts & _ & W' & O & ST & RD).
    rewrite RD in R. assert (w' = w) by congruence. subst w'. destruct (Nat.ltb_spec pols (b_pol o)) as [L|L]; [discriminate|].
    apply bind_inv in R as (a & TU & R). rewrite channels_same in R by exact SW. cbn [bind] in R. rewrite finish_one in R.
    destruct (b_tile o =? b_tile o); [|discriminate]. apply bind_inv in R as (g' & G & R).
    apply turned_shape in TU. destruct CAL as (_ & _ & _ & _ & SH). cbn [map snd rev app] in SH.
    assert (SA : nd_shape a = [b_tile o; b_freq o; 1; b_pol o; nd]).
    { rewrite TU. unfold sliced. destruct (Nat.ltb_spec (b_pol o) pols).
      - unfold nd_slice. rewrite SH. cbn [nd_shape firstn skipn app]. rewrite Nat.min_l by lia. reflexivity.
      - rewrite SH. repeat f_equal. lia. }
    destruct (gains_five o i a _ _ _ _ SA ND) as (h & GH & _). rewrite GH in G. rewrite Nat.min_id in G.
    unfold nd_fill, squeeze in G. cbn [nd_shape filter] in G.
    replace (b_tile o =? 1) with false in G by (symmetry; apply Nat.eqb_neq; lia).
    replace (b_pol o =? 1) with false in G by (symmetry; apply Nat.eqb_neq; lia).
    destruct (Nat.eqb_spec (b_freq o) 1) as [F|F]; cbn [negb rev app fits] in G.
    - rewrite F in G. replace (b_pol o =? 1) with false in G by (symmetry; apply Nat.eqb_neq; lia). discriminate.
    - replace (b_tile o =? 1) with false in G by (symmetry; apply Nat.eqb_neq; lia).
      rewrite (Nat.min_r (b_pol o) 2) in G by lia.
      replace (b_tile o =? 2) with false in G by (symmetry; apply Nat.eqb_neq; lia). cbn [orb andb] in G.
      rewrite !andb_false_r in G. discriminate.
  Qed.

  (** With several times in the file nothing is ever transferred: the axis of the times is removed before it is read. *)
Theorem C85_times_refuted : forall f o i gain r tiles channels times pols n_data,
    calibration f tiles channels times pols n_data -> same_width f o -> times <> 1 ->
    transfer (Some f) o i gain <> Ok (Some r).
  Proof.
    intros f o i gain [bp rest] tiles ch times pols nd CAL (w & W & SW) T E. unfold transfer_bandpass in E.
    apply bind_some in E as (g & R & _).
    destruct (read_standard finer pointing f o i _ _ _ _ _ CAL) as (it & w' & or & st & td & ts & _ & W' & O & ST & RD).
    rewrite RD in R. assert (w' = w) by congruence. subst w'. destruct (pols <? b_pol o); [discriminate|].
    apply bind_inv in R as (a & TU & R). rewrite channels_same in R by exact SW. cbn [bind] in R.
    assert (L : List.length (nd_shape a) = 5).
    { apply turned_shape in TU. rewrite TU, sliced_rank. destruct CAL as (_ & _ & _ & _ & SH). rewrite SH. reflexivity. }
    exact (finish_times finer pointing f o i times it td ts tiles a L T g R).
  Qed.

  (** A file of the convention with an axis of spectral windows (one window): the average removes the tiles instead of
      the windows, and the file is refused unless the observation has a single tile. *)
Theorem C85_window_refuted : forall f o i gain r tiles channels times pols n_data,
    has_cards f -> (exists s, c_str f "caltype" = Some s /\ contains "delay" s = false) ->
    axes f [("narrays", n_data); ("jones", pols); ("time", times); ("freqs", channels); ("if", 1); ("antaxis", tiles)]%string ->
    b_tile o <> 1 -> transfer (Some f) o i gain <> Ok (Some r).
  Proof.
    intros f o i gain [bp rest] tiles ch times pols nd ((nj & J) & (it & I) & (w & W) & (or & O) & C) (ct & CT & ND) (NA & AX & SH) T E.
    cbn [List.length] in NA. unfold transfer_bandpass in E. apply bind_some in E as (g & R & _).
    destruct (C "crval2"%string) as (v2 & V2); [cbn; tauto|]. destruct (C "crval3"%string) as (v3 & V3); [cbn; tauto|].
    destruct (C "crval4"%string) as (v4 & V4); [cbn; tauto|]. destruct (C "cdelt2"%string) as (d2 & D2); [cbn; tauto|].
    destruct (C "cdelt3"%string) as (d3 & D3); [cbn; tauto|].
    destruct (AX 0 _ _ eq_refl) as (T0 & N0). destruct (AX 1 _ _ eq_refl) as (T1 & N1). destruct (AX 2 _ _ eq_refl) as (T2 & N2).
    destruct (AX 3 _ _ eq_refl) as (T3 & N3). destruct (AX 4 _ _ eq_refl) as (T4 & N4). destruct (AX 5 _ _ eq_refl) as (T5 & N5).
    unfold read_bandpass in R. unfold need at 1 2 3 in R. rewrite NA, J, CT in R. cbn [bind] in R. rewrite ND in R.
    unfold need at 1 2 3 in R. rewrite I, W, O in R. cbn [bind] in R.
    cbn [seq map_res bind] in R. unfold need at 1 2 3 4 5 6 in R. rewrite N0, N1, N2, N3, N4, N5 in R. cbn [bind] in R.
    unfold need at 1 2 3 4 5 6 in R. rewrite T0, T1, T2, T3, T4, T5 in R. cbn [bind] in R.
    unfold standard in R. change (first_axis "narrays" _) with (@Ok nat 0) in R. change (first_axis "antaxis" _) with (@Ok nat 5) in R.
    change (first_axis "freqs" _) with (@Ok nat 3) in R. change (first_axis "time" _) with (@Ok nat 2) in R.
    change (first_axis "jones" _) with (@Ok nat 1) in R. change (axes_named "if" _) with [4] in R. cbn [bind Nat.eqb andb] in R.
    unfold need in R. change "naxis5"%string with (numbered "naxis" 5) in R. rewrite N4 in R. cbn [bind Nat.eqb] in R.
    rewrite V2, V3, V4, D2, D3 in R. cbn [bind] in R.
    unfold nd_mean0 in R. rewrite SH in R. cbn [map snd rev app nd_shape nth_res nth_error bind nth] in R.
    destruct (pols <? b_pol o); [discriminate|]. apply bind_inv in R as (? & _ & R). apply bind_some in R as (? & _ & R).
    apply bind_some in R as (? & _ & R). destruct (Nat.eqb_spec 1 (b_tile o)); [congruence|discriminate].
  Qed.

  (** What is transferred in the one remaining case of more than two tiles (one polarisation, as many tiles as
      frequencies): only real parts, rounded towards zero if the initial gain is a whole number (as it is by default);
      and the gain of tile t at channel c is divided by the bandpass of tile c at channel t. *)
Theorem C85_values_partial : forall f o i gain n n_data,
    calibration f n n 1 1 n_data -> same_width f o -> oriented f "east" -> 2 <= n_data -> 2 <= n ->
    b_pol o = 1 -> b_tile o = n -> b_freq o = n -> gains_of o gain ->
    exists bp rest, transfer (Some f) o i gain = Ok (Some (bp, rest))
      /\ nd_shape bp = [1; n; n]
      /\ (forall t c, t < n -> c < n -> nd_at bp [0; t; c] =
            match i with InitInt _ => inject_Z (Qtrunc (part f t c 0 0)) | InitFloat _ => part f t c 0 0 end)
      /\ (forall t c, t < n -> c < n -> at3 rest 0 c t =
            match at3 gain 0 c t with
            | Some g => let b := Q2Qc (nd_at bp [0; c; t]) in if Qc_eq_dec b 0 then None else Some (Cscale (Qcinv b) g)
            | None => None
            end).
  Proof.
    intros f o i gain n nd CAL (w & W & SW) OR ND N P T F (GP & GF & GT).
    destruct (read_standard finer pointing f o i _ _ _ _ _ CAL) as (it & w' & or & st & td & ts & _ & W' & O & ST & RD).
    assert (w' = w) by congruence. subst w'. unfold oriented in OR. assert (or = "east"%string) by congruence. subst or.
    destruct CAL as (_ & _ & _ & _ & SH). cbn [map snd rev app] in SH.
    assert (R : exists h, read_bandpass finer pointing f o i = Ok (Some (NdArr [1; n; n] h))
                /\ forall t c, h [0; t; c] = stored i (part f t c 0 0) (part f t c 0 1)).
    { rewrite RD, P. cbn [Nat.ltb Nat.leb]. unfold turned. cbn [String.eqb Ascii.eqb Bool.eqb orb bind].
      rewrite channels_same by exact SW. cbn [bind]. rewrite finish_one, T, Nat.eqb_refl. unfold sliced. rewrite P.
      cbn [Nat.ltb Nat.leb]. destruct (gains_five o i (c_data f) _ _ _ _ SH ND) as (h & GH & HV). rewrite GH, P, T, F.
      unfold nd_fill, squeeze. cbn [Nat.min nd_shape filter]. replace (n =? 1) with false by (symmetry; apply Nat.eqb_neq; lia).
      cbn [negb Nat.eqb rev app fits]. rewrite !Nat.eqb_refl. cbn [orb andb bind nd_at].
      eexists. split; [reflexivity|]. intros t c. cbn [rev app spread].
      replace (n =? 1) with false by (symmetry; apply Nat.eqb_neq; lia). cbn [rev app unsqueeze].
      replace (n =? 1) with false by (symmetry; apply Nat.eqb_neq; lia). cbn [Nat.eqb]. apply HV. }
    destruct R as (h & R & HV). eexists. eexists. unfold transfer_bandpass. rewrite R. cbn [bind].
    unfold remainder. cbn [nd_shape]. rewrite GP, GF, GT, P, T, F. cbn [Nat.min].
    replace (bdim n n) with (Some n) by (unfold bdim; now rewrite Nat.eqb_refl). cbn [bdim Nat.eqb].
    rewrite Nat.eqb_refl. cbn [orb andb bind].
    split; [reflexivity|]. split; [reflexivity|]. split.
    - intros t c _ _. cbn [nd_at]. rewrite HV. reflexivity.
    - intros t c LT LC. cbn [at3 nd_at]. unfold bidx. cbn [Nat.eqb].
      replace (n =? 1) with false by (symmetry; apply Nat.eqb_neq; lia). reflexivity.
  Qed.

  (** So with the default initial gain every bandpass value between -1 and 1 becomes 0 and the remainder there is not a
      number. *)
Theorem C85_rounded_refuted : forall f o k gain n n_data t c,
    calibration f n n 1 1 n_data -> same_width f o -> oriented f "east" -> 2 <= n_data -> 2 <= n ->
    b_pol o = 1 -> b_tile o = n -> b_freq o = n -> gains_of o gain -> t < n -> c < n ->
    (0 <= part f t c 0 0)%Q -> (part f t c 0 0 < 1)%Q ->
    exists bp rest, transfer (Some f) o (InitInt k) gain = Ok (Some (bp, rest))
      /\ nd_at bp [0; t; c] = inject_Z 0 /\ at3 rest 0 t c = None.
  Proof.
    intros f o k gain n nd t c CAL SW OR ND N P T F G LT LC L0 L1.
    destruct (C85_values_partial f o (InitInt k) gain n nd CAL SW OR ND N P T F G) as (bp & rest & E & _ & B & R).
    exists bp, rest. split; [exact E|]. rewrite B, R by assumption. rewrite B by assumption.
    assert (Z0 : Qtrunc (part f t c 0 0) = 0%Z).
    { unfold Qtrunc. replace (Qle_bool 0 (part f t c 0 0)) with true by (symmetry; now apply Qle_bool_iff).
      pose proof (Qfloor_le (part f t c 0 0)) as U. pose proof (Qlt_floor (part f t c 0 0)) as V.
      assert (A : (Qfloor (part f t c 0 0) < 1)%Z). { rewrite Zlt_Qlt. eapply Qle_lt_trans; [exact U|exact L1]. }
      assert (D : (-1 < Qfloor (part f t c 0 0))%Z).
      { assert (X : (0 < Qfloor (part f t c 0 0) + 1)%Z) by (rewrite Zlt_Qlt; eapply Qle_lt_trans; [exact L0|exact V]). lia. }
      lia. }
    rewrite Z0. split; [reflexivity|]. destruct (at3 gain 0 t c); [|reflexivity].
    change (Q2Qc (inject_Z 0)) with 0%Qc. cbn zeta. destruct (Qc_eq_dec 0 0); congruence.
  Qed.

  (** A file whose x axis points north: with one polarisation the call fails, and with more the second polarisation
      replaces the first instead of being exchanged with it (for sizes for which something is transferred). *)
Theorem C85_orientation_refuted : forall f o gain n_data,
    same_width f o -> oriented f "north" -> 2 <= n_data ->
    (forall i n m pols, calibration f n m 1 pols n_data -> 1 <= pols -> b_pol o = 1 -> transfer (Some f) o i gain = Err IndexError)
    /\ (forall x bp rest, calibration f 2 2 1 2 n_data -> b_pol o = 2 -> b_tile o = 2 -> b_freq o = 2 ->
          transfer (Some f) o (InitFloat x) gain = Ok (Some (bp, rest)) ->
          forall p t c, c < 2 -> exists tile channel, nd_at bp [p; t; c] = part f tile channel 1 0).
  Proof.
    intros f o gain nd (w & W & SW) OR ND. unfold oriented in OR. split.
    - intros i n m pols CAL L1 P.
      destruct (read_standard finer pointing f o i _ _ _ _ _ CAL) as (it & w' & or & st & td & ts & _ & W' & O & ST & RD).
      assert (or = "north"%string) by congruence. subst or. destruct CAL as (_ & _ & _ & _ & SH). cbn [map snd rev app] in SH.
      unfold transfer_bandpass. rewrite RD. rewrite P. destruct (Nat.ltb_spec pols 1); [lia|].
      assert (SA : nd_shape (sliced o pols (c_data f)) = [n; m; 1; 1; nd]).
      { unfold sliced. rewrite P. destruct (Nat.ltb_spec 1 pols).
        - unfold nd_slice. rewrite SH. cbn [nd_shape firstn skipn app]. destruct pols as [|[|pols]]; [lia|reflexivity|reflexivity].
        - rewrite SH. repeat f_equal. lia. }
      unfold turned. cbn [String.eqb Ascii.eqb Bool.eqb orb]. unfold swap at 1. rewrite SA. reflexivity.
    - intros x bp rest CAL P T F E p t c LC.
      destruct (read_standard finer pointing f o (InitFloat x) _ _ _ _ _ CAL) as (it & w' & or & st & td & ts & _ & W' & O & ST & RD).
      assert (or = "north"%string) by congruence. subst or. assert (w' = w) by congruence. subst w'.
      destruct CAL as (_ & _ & _ & _ & SH). cbn [map snd rev app] in SH.
      unfold transfer_bandpass in E. rewrite RD, P in E. cbn [Nat.ltb Nat.leb] in E. unfold turned, sliced in E. rewrite P in E.
      cbn [String.eqb Ascii.eqb Bool.eqb orb Nat.ltb Nat.leb] in E. unfold swap at 1 in E. rewrite SH in E.
      cbn [skipn Nat.ltb Nat.leb andb bind nd_shape] in E. rewrite channels_same in E by exact SW. cbn [bind] in E.
      rewrite finish_one, T in E. cbn [Nat.eqb] in E.
      match type of E with context [gains o (InitFloat x) ?a] => set (A := a) in E end.
      assert (SA : nd_shape A = [2; 2; 1; 2; nd]) by (subst A; reflexivity).
      destruct (gains_five o (InitFloat x) A _ _ _ _ SA ND) as (h & GH & HV). rewrite GH, P, T, F in E.
      unfold nd_fill, squeeze in E. cbn [Nat.min nd_shape filter Nat.eqb negb rev app fits orb andb bind nd_at] in E.
      apply bind_inv in E as (r & _ & E). inversion E; subst bp. cbn [nd_at rev app spread Nat.eqb unsqueeze].
      rewrite HV. exists p, t. unfold part. subst A. cbn [stored nd_at nth firstn skipn app].
      destruct (Nat.eqb_spec c 1) as [->|N1]; cbn [nth firstn skipn app Nat.eqb].
      + reflexivity.
      + destruct (Nat.eqb_spec c 0) as [->|N0]; cbn [nth firstn skipn app Nat.eqb]; [reflexivity|lia].
  Qed.

  (** ** C86: files that cannot be used. [estimate] is the bandpass computed from the gains. *)
  Local Notation used := (bandpass_used finer pointing).

  Local Notation same file o i gain := (forall A (estimate : result A), used (Some file) o i gain estimate = used None o i gain estimate).
  Lemma skipped f o i gain : read_bandpass finer pointing f o i = Ok None -> same (Some f) o i gain.
  Proof. intros E A est. unfold bandpass_used, transfer_bandpass. rewrite E. reflexivity. Qed.

  (** No such file. *)
Theorem C86_missing : forall o i gain, same None o i gain.
  Proof. reflexivity. Qed.
  (** Delays instead of gains. *)
Theorem C86_delay : forall f o i gain n m s,
    c_int f "naxis" = Some n -> c_int f "njones" = Some m -> c_str f "caltype" = Some s -> contains "delay" s = true ->
    same (Some f) o i gain.
  Proof.
    intros f o i gain n m s N J C D. apply skipped. unfold read_bandpass, need at 1 2 3. rewrite N, J, C. cbn [bind]. now rewrite D.
  Qed.
  (** Axes of the standard in another order. *)
Theorem C86_axes : forall f o i gain l s,
    has_cards f -> c_str f "caltype" = Some s -> contains "delay" s = false -> axes f l ->
    (forall name, In name ["narrays"; "jones"; "time"; "freqs"; "antaxis"]%string -> In name (map fst l)) ->
    ~ In "if"%string (map fst l) -> firstn 5 (map fst l) <> ["narrays"; "jones"; "time"; "freqs"; "antaxis"]%string ->
    same (Some f) o i gain.
  Proof.
    intros f o i gain l s ((nj & J) & (it & I) & (w & W) & (or & O) & _) C D AX A N F. apply skipped.
    destruct (axes_read f l AX) as (D1 & D2). destruct AX as (NA & _).
    unfold read_bandpass. unfold need at 1 2 3. rewrite NA, J, C. cbn [bind]. rewrite D. unfold need at 1 2 3. rewrite I, W, O. cbn [bind].
    rewrite D1. cbn [bind]. rewrite D2. cbn [bind]. rewrite not_standard by assumption. reflexivity.
  Qed.
  (** Fewer polarisations than the observation. *)
Theorem C86_polarisations : forall f o i gain tiles channels times pols n_data,
    calibration f tiles channels times pols n_data -> pols < b_pol o -> same (Some f) o i gain.
  Proof.
    intros f o i gain tiles ch times pols nd CAL L. apply skipped.
    destruct (read_standard finer pointing f o i _ _ _ _ _ CAL) as (it & w' & or & st & td & ts & _ & W' & O & ST & RD).
    rewrite RD. destruct (Nat.ltb_spec pols (b_pol o)); [reflexivity|lia].
  Qed.
  (** Channels whose width is neither a multiple nor a whole part of that of the observation. *)
Theorem C86_width : forall f o i gain tiles channels times pols n_data w,
    calibration f tiles channels times pols n_data -> oriented f "east" -> c_num f "chwidth" = Some w ->
    ~ (w == b_freq_res o)%Q -> (forall k, ~ b_freq_res o / w == inject_Z k)%Q -> (forall k, ~ / (b_freq_res o / w) == inject_Z k)%Q ->
    same (Some f) o i gain.
  Proof.
    intros f o i gain tiles ch times pols nd w CAL OR W N A B. apply skipped.
    destruct (read_standard finer pointing f o i _ _ _ _ _ CAL) as (it & w' & or & st & td & ts & _ & W' & O & ST & RD).
    unfold oriented in OR. assert (w' = w) by congruence. assert (or = "east"%string) by congruence. subst.
    rewrite RD. destruct (pols <? b_pol o); [reflexivity|]. unfold turned. cbn [String.eqb Ascii.eqb Bool.eqb orb bind].
    now rewrite other_width by assumption.
  Qed.
  (** Channels of another width that do not start where those of the observation start. *)
Theorem C86_start : forall f o i gain tiles channels times pols n_data w first,
    calibration f tiles channels times pols n_data -> oriented f "east" -> c_num f "chwidth" = Some w ->
    c_num f "crval4" = Some first -> ~ (w == b_freq_res o)%Q -> ~ (first == b_freq0 o)%Q ->
    same (Some f) o i gain.
  Proof.
    intros f o i gain tiles ch times pols nd w first CAL OR W F N A. apply skipped.
    destruct (read_standard finer pointing f o i _ _ _ _ _ CAL) as (it & w' & or & st & td & ts & _ & W' & O & ST & RD).
    unfold oriented in OR. assert (w' = w) by congruence. assert (or = "east"%string) by congruence. subst.
    rewrite RD. destruct (pols <? b_pol o); [reflexivity|]. unfold turned. cbn [String.eqb Ascii.eqb Bool.eqb orb bind].
    rewrite other_start; [reflexivity|exact N|congruence].
  Qed.
  (** Another number of tiles than the observation. *)
Theorem C86_tiles : forall f o i gain tiles channels pols n_data,
    calibration f tiles channels 1 pols n_data -> same_width f o -> oriented f "east" -> tiles <> b_tile o ->
    same (Some f) o i gain.
  Proof.
    intros f o i gain tiles ch pols nd CAL (w & W & SW) OR N. apply skipped.
    destruct (read_standard finer pointing f o i _ _ _ _ _ CAL) as (it & w' & or & st & td & ts & _ & W' & O & ST & RD).
    unfold oriented in OR. assert (w' = w) by congruence. assert (or = "east"%string) by congruence. subst.
    rewrite RD. destruct (pols <? b_pol o); [reflexivity|]. unfold turned. cbn [String.eqb Ascii.eqb Bool.eqb orb bind].
    rewrite channels_same by exact SW. cbn [bind]. rewrite finish_one. destruct (Nat.eqb_spec tiles (b_tile o)); [congruence|reflexivity].
  Qed.
  (** Only what is transferred is used instead of the estimate, and without a file the estimate is used. *)
Theorem C86_used : forall A file o i gain (estimate : result A),
    bandpass_used finer pointing None o i gain estimate = (e <- estimate ;; Ok (inl e))
    /\ forall b, transfer file o i gain = Ok (Some b) -> bandpass_used finer pointing (Some file) o i gain estimate = Ok (inr b).
  Proof. intros A file o i gain estimate. split; [reflexivity|]. intros b E. unfold bandpass_used. now rewrite E. Qed.
End C85.
Print Assumptions C85_axes_refuted.
Print Assumptions C85_polarisations_refuted.
Print Assumptions C85_times_refuted.
Print Assumptions C85_window_refuted.
Print Assumptions C85_values_partial.
Print Assumptions C85_rounded_refuted.
Print Assumptions C85_orientation_refuted.
Print Assumptions C86_missing.
Print Assumptions C86_delay.
Print Assumptions C86_axes.
Print Assumptions C86_polarisations.
Print Assumptions C86_width.
Print Assumptions C86_start.
Print Assumptions C86_tiles.
Print Assumptions C86_used.

(** ** A concrete file: two tiles and channels, one polarisation, all gains 1.5 + 0.5i. *)
Definition demo_file (tiles : nat) (orient : string) : calfits := {|
  c_int := fun k => match find (fun p => String.eqb (fst p) k)
     [("naxis", 5); ("njones", 1); ("naxis1", 3); ("naxis2", 1); ("naxis3", 1); ("naxis4", 2); ("naxis5", tiles)]%string with
     | Some p => Some (snd p) | None => None end;
  c_num := fun k => if String.eqb k "chwidth" then Some 80000%Q else Some 1%Q;
  c_str := fun k => match find (fun p => String.eqb (fst p) k)
     [("caltype", "gain"); ("xorient", orient); ("ctype1", "narrays"); ("ctype2", "jones"); ("ctype3", "time"); ("ctype4", "freqs");
      ("ctype5", "antaxis")]%string with Some p => Some (snd p) | None => None end;
  c_data := NdArr [tiles; 2; 1; 1; 3] (fun idx => nth (nth 4 idx 0%nat) [3 # 2; 1 # 2; 0] 0)%Q |}.
Definition demo_obs : bp_obs := {| b_pol := 1; b_freq := 2; b_tile := 2; b_freq_res := 80000%Q; b_time_res := 2%Q; b_freq0 := 1%Q; b_middle := 0%Q |}.
Definition demo_gain : arr3 (option C) := Arr3 1 2 2 (fun _ _ _ => Some (mkC (Q2Qc 2) (Q2Qc 1))).

Lemma demo_calibration tiles orient : calibration (demo_file tiles orient) tiles 2 1 1 3.
Proof.
  split; [|split].
  - split; [now exists 1|]. split; [eexists; reflexivity|]. split; [eexists; reflexivity|]. split; [eexists; reflexivity|].
    intros k K. unfold demo_file, c_num. destruct (String.eqb k "chwidth"); eexists; reflexivity.
  - exists "gain"%string. split; reflexivity.
  - split; [reflexivity|]. split; [|reflexivity].
    intros [|[|[|[|[|k]]]]] name n E; cbn in E; try (inversion E; subst; split; reflexivity). destruct k; discriminate.
Qed.
Example C85_demo : forall finer pointing,
  (exists bp rest, transfer_bandpass finer pointing (Some (demo_file 2 "east")) demo_obs (InitInt 1) demo_gain = Ok (Some (bp, rest))
     /\ nd_at bp [0; 1; 0] = inject_Z 1)                   (* 1.5 + 0.5i has become 1 *)
  /\ transfer_bandpass finer pointing (Some (demo_file 2 "north")) demo_obs (InitInt 1) demo_gain = Err IndexError
  /\ (forall A (estimate : result A), bandpass_used finer pointing (Some (Some (demo_file 3 "east"))) demo_obs (InitInt 1) demo_gain estimate
        = bandpass_used finer pointing None demo_obs (InitInt 1) demo_gain estimate).
Proof.
  intros finer pointing.
  assert (SW : forall t s, same_width (demo_file t s) demo_obs) by (intros; exists 80000%Q; split; reflexivity).
  split; [|split].
  - destruct (C85_values_partial finer pointing (demo_file 2 "east") demo_obs (InitInt 1) demo_gain 2 3) as (bp & rest & E & _ & B & _);
      try reflexivity; try (apply demo_calibration); try apply SW; try lia; [now repeat split|].
    exists bp, rest. split; [exact E|]. rewrite B by lia. reflexivity.
  - apply (proj1 (C85_orientation_refuted finer pointing (demo_file 2 "north") demo_obs demo_gain 3 (SW _ _) eq_refl ltac:(lia)) _ 2 2 1);
      [apply demo_calibration|lia|reflexivity].
  - apply (C86_tiles finer pointing _ _ _ _ 3 2 1 3); [apply demo_calibration|apply SW|reflexivity|discriminate].
Qed.
