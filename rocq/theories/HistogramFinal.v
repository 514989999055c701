(** Lemmas in the exact form of the histogram property theorems. *)
From Coq Require Import Lqa.
From Verif Require Import Base Histogram HistogramSpec HistogramProofs.
Open Scope Q_scope.

Lemma bins_length lo hi b : length (map (edge lo b) (seq 0 (nbins lo hi b))) = nbins lo hi b.
Proof. now rewrite map_length, seq_length. Qed.

Lemma histogram_counts (data : list Q) (b lo hi : Q) :
  0 < b -> lo <= hi ->
  exists hist bins ri,
    histogram data b None (Some lo) (Some hi) = Ok (hist, bins, ri)
    /\ length hist = length bins
    /\ (forall i, (i < length bins)%nat ->
          nth i bins 0 == lo + inject_Z (Z.of_nat i) * b)
    /\ in_bin lo b (length bins - 1) hi
    /\ (forall i, (i < length hist)%nat -> nth i hist 0%nat = bin_count lo hi b data i)
    /\ (forall d, within lo hi d ->
          exists i, ((i < length hist)%nat /\ in_bin lo b i d)
                    /\ forall j, in_bin lo b j d -> j = i)
    /\ sum_nat hist = length (filter (within_b lo hi) data).
Proof.
  intros Hb H.
  destruct (histogram_main data b lo hi Hb H)
    as (hist & ri & E & Hh & L & R0 & R1 & R2 & R3 & R4).
  exists hist, (map (edge lo b) (seq 0 (nbins lo hi b))), ri.
  rewrite bins_length. split; [exact E|].
  assert (HL : length hist = nbins lo hi b) by (now rewrite Hh, map_length, seq_length).
  split; [exact HL|]. split.
  { intros i Hi. rewrite nth_map_seq by auto. apply Qeq_refl. }
  split.
  { destruct (floor_bounds lo hi b Hb H) as (Hm & H1 & H2).
    unfold nbins, in_bin.
    replace (Z.of_nat (S (Z.to_nat (Qfloor ((hi - lo) / b))) - 1)) with (Qfloor ((hi - lo) / b)) by lia.
    auto. }
  rewrite HL. split.
  { intros i Hi. now rewrite Hh, nth_map_seq. }
  split; [|exact R4].
  intros d Hd. now apply unique_bin.
Qed.

Lemma histogram_default_counts (data : list Q) (b : Q) :
  0 < b -> data <> [] ->
  exists lo hi hist bins ri,
    In lo data /\ In hi data /\ (forall d, In d data -> lo <= d <= hi)
    /\ histogram data b None None None = Ok (hist, bins, ri)
    /\ histogram data b None (Some lo) (Some hi) = Ok (hist, bins, ri)
    /\ sum_nat hist = length data.
Proof.
  intros Hb Hne.
  destruct (np_min_spec data Hne) as (lo & Em & Im & Hm).
  destruct (np_max_spec data Hne) as (hi & EM & IM & HM).
  assert (Hall : forall d, In d data -> lo <= d <= hi) by (intros; split; auto).
  destruct (histogram_main data b lo hi Hb (proj1 (Hall hi IM)))
    as (hist & ri & E & Hh & L & R0 & R1 & R2 & R3 & R4).
  exists lo, hi, hist, (map (edge lo b) (seq 0 (nbins lo hi b))), ri.
  repeat (split; [now auto|]). split.
  { rewrite (histogram_defaults data b None None lo hi None Em EM). exact E. }
  split; [exact E|]. rewrite R4, filter_all; auto.
  intros d Hd. apply within_b_spec, Hall, Hd.
Qed.

Lemma reverse_indices (data : list Q) (b lo hi : Q) :
  0 < b -> lo <= hi ->
  exists hist bins ri,
    histogram data b None (Some lo) (Some hi) = Ok (hist, bins, ri)
    /\ length ri = (length bins + 1 + length (filter (within_b lo hi) data))%nat
    /\ nth 0 ri 0%nat = (length bins + 1)%nat
    /\ nth (length bins) ri 0%nat = length ri
    /\ (forall i, (i < length bins)%nat ->
          nth (S i) ri 0%nat = (nth i ri 0%nat + nth i hist 0%nat)%nat
          /\ slice ri (nth i ri 0%nat) (nth (S i) ri 0%nat) = bin_positions lo hi b data i)
    /\ (forall k, (k < length data)%nat -> within lo hi (nth k data 0) ->
          exists i, (i < length bins)%nat
            /\ In k (slice ri (nth i ri 0%nat) (nth (S i) ri 0%nat))
            /\ forall j, (j < length bins)%nat ->
                 In k (slice ri (nth j ri 0%nat) (nth (S j) ri 0%nat)) -> j = i)
    /\ (forall k i, (i < length bins)%nat ->
          In k (slice ri (nth i ri 0%nat) (nth (S i) ri 0%nat)) ->
          (k < length data)%nat /\ within lo hi (nth k data 0)).
Proof.
  intros Hb H.
  destruct (histogram_main data b lo hi Hb H)
    as (hist & ri & E & Hh & L & R0 & R1 & R2 & R3 & R4).
  exists hist, (map (edge lo b) (seq 0 (nbins lo hi b))), ri.
  rewrite bins_length. split; [exact E|].
  split; [exact L|]. split; [exact R0|]. split; [exact R2|].
  assert (Hpos : forall k i, In k (bin_positions lo hi b data i) <->
            (k < length data)%nat /\ within lo hi (nth k data 0) /\ in_bin lo b i (nth k data 0)).
  { intros k i. unfold bin_positions. rewrite filter_In, in_seq, andb_true_iff.
    rewrite within_b_spec, in_bin_b_spec. intuition lia. }
  split.
  { intros i Hi. split; [|now apply R3].
    rewrite R1 by auto. f_equal. now rewrite Hh, nth_map_seq. }
  split.
  - intros k Hk Hw. destruct (unique_bin lo hi b _ Hb Hw) as (i & [Hi Hb1] & Hu).
    exists i. split; auto. split.
    + rewrite R3 by auto. apply Hpos. auto.
    + intros j Hj. rewrite R3 by auto. intros Hin%Hpos. apply Hu. apply Hin.
  - intros k i Hi. rewrite R3 by auto. intros Hin%Hpos. tauto.
Qed.

Lemma num_bins_refuted :
  exists (data : list Q) (lo hi : Q) (k : Z),
    lo < hi /\ (1 <= k)%Z /\ (forall d, In d data -> lo <= d <= hi)
    /\ histogram data 1 (Some k) (Some lo) (Some hi) = Err OutOfBounds.
Proof.
  exists [0; 1; 4], 0, 4, 2%Z. split; [lra|]. split; [lia|]. split.
  - intros d [<-|[<-|[<-|[]]]]; lra.
  - vm_compute. reflexivity.
Qed.

Lemma num_bins_max data lo hi k d bs :
  lo < hi -> (2 <= k)%Z -> d == hi -> In d data ->
  histogram data bs (Some k) (Some lo) (Some hi) = Err OutOfBounds.
Proof. intros H1 H2 H3 H4. now apply (histogram_num_bins_max data lo hi k d). Qed.

Lemma num_bins_partial data lo hi k bs :
  lo < hi -> (2 <= k)%Z -> (forall d, In d data -> ~ d == hi) ->
  exists hist bins ri,
    histogram data bs (Some k) (Some lo) (Some hi) = Ok (hist, bins, ri)
    /\ length hist = Z.to_nat k
    /\ (forall i, (i < Z.to_nat k)%nat ->
          nth i hist 0%nat = bin_count lo hi ((hi - lo) / inject_Z k) data i)
    /\ sum_nat hist = length (filter (within_b lo hi) data).
Proof.
  intros H Hk Hn.
  destruct (histogram_num_bins_ok data lo hi k H ltac:(lia) (or_introl Hn) bs)
    as (hist & ri & E & L & C & S).
  exists hist. eexists _, ri. split; [exact E|]. split; [exact L|]. split; [|exact S].
  intros i Hi. rewrite C by auto. destruct (Z.eqb_spec k 1); [lia|reflexivity].
Qed.
