(** Properties C01, C02, C03: the histogram and its reverse indices. *)
From Verif Require Import Base Histogram HistogramSpec HistogramProofs HistogramFinal.
Open Scope Q_scope.

(** C01. For explicit limits lo <= hi and any positive bin width, the returned
    edges are lo, lo+b, ..., the last bin is the one containing hi, entry i of
    the histogram is the number of in-range elements in bin i, every value
    within the limits lies in exactly one returned bin, and the total is the
    number of in-range elements. *)
Theorem C01_histogram_counts : forall (data : list Q) (b lo hi : Q),
  0 < b -> lo <= hi ->
  exists hist bins ri,
    histogram data b None (Some lo) (Some hi) = Ok (hist, bins, ri)
    /\ length hist = length bins
    /\ (forall i, (i < length bins)%nat ->
          nth i bins 0 == lo + inject_Z (Z.of_nat i) * b)
    /\ in_bin lo b (length bins - 1) hi
    /\ (forall i, (i < length hist)%nat -> nth i hist 0%nat = bin_count lo hi b data i)
    /\ (forall d, within lo hi d ->
          exists i, ((i < length hist)%nat /\ in_bin lo b i d)
                    /\ forall j, in_bin lo b j d -> j = i)
    /\ sum_nat hist = length (filter (within_b lo hi) data).
Proof. exact histogram_counts. Qed.
Print Assumptions C01_histogram_counts.

Example C01_case :
  histogram [3; 1; 7; 2; 2; 9] 2 None (Some 1) (Some 7)
  = Ok ([3; 1; 0; 1]%nat, [1 + 0 * 2; 1 + 1 * 2; 1 + 2 * 2; 1 + 3 * 2], [5; 8; 9; 9; 10; 1; 3; 4; 0; 2]%nat).
Proof. vm_compute. reflexivity. Qed.

(** C01, limits taken from the data: nothing is out of range, so every element
    is counted; an empty array is rejected. *)
Theorem C01_histogram_default_limits : forall (data : list Q) (b : Q),
  0 < b -> data <> [] ->
  exists lo hi hist bins ri,
    In lo data /\ In hi data /\ (forall d, In d data -> lo <= d <= hi)
    /\ histogram data b None None None = Ok (hist, bins, ri)
    /\ histogram data b None (Some lo) (Some hi) = Ok (hist, bins, ri)
    /\ sum_nat hist = length data.
Proof. exact histogram_default_counts. Qed.
Print Assumptions C01_histogram_default_limits.

Theorem C01_histogram_empty : forall b nb,
  histogram [] b nb None None = Err ValueError.
Proof. exact histogram_empty_defaults. Qed.
Print Assumptions C01_histogram_empty.

(** C01, inverted limits: the call behaves as if the upper limit were the lower one. *)
Theorem C01_histogram_inverted_limits : forall data b lo hi, hi < lo ->
  histogram data b None (Some lo) (Some hi) = histogram data b None (Some lo) (Some lo).
Proof. exact histogram_inverted. Qed.
Print Assumptions C01_histogram_inverted_limits.

(** C02. Reverse indices: the slice of bin i is exactly the increasing list of
    the positions of the data elements in bin i; the slices are adjacent, start
    right after the nbins+1 header and end at the end of the array; together
    they list every in-range position exactly once. *)
Theorem C02_reverse_indices : forall (data : list Q) (b lo hi : Q),
  0 < b -> lo <= hi ->
  exists hist bins ri,
    histogram data b None (Some lo) (Some hi) = Ok (hist, bins, ri)
    /\ length ri = (length bins + 1 + length (filter (within_b lo hi) data))%nat
    /\ nth 0 ri 0%nat = (length bins + 1)%nat
    /\ nth (length bins) ri 0%nat = length ri
    /\ (forall i, (i < length bins)%nat ->
          nth (S i) ri 0%nat = (nth i ri 0%nat + nth i hist 0%nat)%nat
          /\ slice ri (nth i ri 0%nat) (nth (S i) ri 0%nat) = bin_positions lo hi b data i)
    /\ (forall k, (k < length data)%nat -> within lo hi (nth k data 0) ->
          exists i, (i < length bins)%nat
            /\ In k (slice ri (nth i ri 0%nat) (nth (S i) ri 0%nat))
            /\ forall j, (j < length bins)%nat ->
                 In k (slice ri (nth j ri 0%nat) (nth (S j) ri 0%nat)) -> j = i)
    /\ (forall k i, (i < length bins)%nat ->
          In k (slice ri (nth i ri 0%nat) (nth (S i) ri 0%nat)) ->
          (k < length data)%nat /\ within lo hi (nth k data 0)).
Proof. exact reverse_indices. Qed.
Print Assumptions C02_reverse_indices.

Example C02_case :
  exists hist bins ri, histogram [5; 0; 3; 12; 4] 3 None (Some 0) (Some 8) = Ok (hist, bins, ri)
    /\ slice ri (nth 1 ri 0%nat) (nth 2 ri 0%nat) = [0; 2; 4]%nat.
Proof. vm_compute. do 3 eexists. split; reflexivity. Qed.

(** C03 is false of the code: with num_bins >= 2, any element equal to the upper
    limit makes the counting kernel write outside the histogram. *)
Theorem C03_num_bins_refuted :
  exists (data : list Q) (lo hi : Q) (k : Z),
    lo < hi /\ (1 <= k)%Z /\ (forall d, In d data -> lo <= d <= hi)
    /\ histogram data 1 (Some k) (Some lo) (Some hi) = Err OutOfBounds.
Proof. exact num_bins_refuted. Qed.
Print Assumptions C03_num_bins_refuted.

(** The failure is not special to the witness. *)
Theorem C03_num_bins_maximum_overflows : forall data lo hi k d bs,
  lo < hi -> (2 <= k)%Z -> d == hi -> In d data ->
  histogram data bs (Some k) (Some lo) (Some hi) = Err OutOfBounds.
Proof. exact num_bins_max. Qed.
Print Assumptions C03_num_bins_maximum_overflows.

(** What does hold: without elements equal to the upper limit all k bins are right. *)
Theorem C03_num_bins_partial : forall data lo hi k bs,
  lo < hi -> (2 <= k)%Z -> (forall d, In d data -> ~ d == hi) ->
  exists hist bins ri,
    histogram data bs (Some k) (Some lo) (Some hi) = Ok (hist, bins, ri)
    /\ length hist = Z.to_nat k
    /\ (forall i, (i < Z.to_nat k)%nat ->
          nth i hist 0%nat = bin_count lo hi ((hi - lo) / inject_Z k) data i)
    /\ sum_nat hist = length (filter (within_b lo hi) data).
Proof. exact num_bins_partial. Qed.
Print Assumptions C03_num_bins_partial.

Example C03_case : exists bins ri,
  histogram [0; 1; 2; 3; 5] 1 (Some 3%Z) (Some 0) (Some 6) = Ok ([2; 2; 1]%nat, bins, ri).
Proof. vm_compute. do 2 eexists. reflexivity. Qed.
