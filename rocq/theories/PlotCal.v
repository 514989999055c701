(** Model of the pages of calibration plots (plot_cals, PyFHD/plotting/calibration.py:10-231).

    What matplotlib draws is recorded as data: a page is a pair of figures (amplitude and phase)
    with 8 rows of 16 panels; each panel has a title and the lines drawn in it.  The numbers of a
    plot, their NaN and the functions of NumPy which make them are parameters. *)
From Coq Require Import String QArith.
From Verif Require Import Base PyIndex TransferBp.
Import ListNotations.
Open Scope nat_scope.

Section PlotCal.
  (** complex gains, and real numbers with NaN and infinities *)
  Context {G V : Type}.
  Variable gadd : G -> G -> G.
  (** np.abs and np.arctan2 of the parts *)
  Variable vabs varg : G -> V.
  Variable vsub : V -> V -> V.
  (** np.unwrap along the channels *)
  Variable unwrap : list V -> list V.
  Variable isnan isfinite : V -> bool.
  (** np.nanmin and np.nanmax of a non-empty array *)
  Variable nanmin nanmax : list V -> V.
  (** [-np.pi - 0.1, np.pi + 0.1] (calibration.py:72, 74) *)
  Variable full_turn : V * V.
  (** str of a page number (calibration.py:212) *)
  Variable show : nat -> string.

  (** obs, cal and pyfhd_config as plot_cals reads them.  Simplified: gain and gain_residual have
      the shape (n_pol, n_freq, n_tile), the channel frequencies n_freq entries. *)
  Record plot_input := {
    in_n_tile : nat;
    in_n_pol : nat;
    in_freq_use : list bool;
    in_freq : nat -> Q;
    in_tile_use : list bool;
    in_tile_names : list string;
    in_pol_names : list string;
    in_gain : nat -> nat -> nat -> G;
    in_residual : nat -> nat -> nat -> G;
    in_obs_id : string
  }.

  (** One ax.plot call for a polarisation, on both figures (calibration.py:178-179). *)
  Record line := Line { ln_pol : nat; ln_freq : list Q; ln_amp : list V; ln_phase : list V }.
  Record panel := Panel { pn_row : nat; pn_col : nat; pn_title : string; pn_lines : list line; pn_off : bool }.
  Record page := Page {
    pg_amp_file : string; pg_phase_file : string;
    pg_amp_lim : V * V; pg_phase_lim : V * V;
    pg_panels : list panel
  }.

  Section Input.
    Variable i : plot_input.

    (** freq_i_use, freq_arr_use, tile_i_use (calibration.py:26-30) *)
    Definition freq_i_use : list nat := where_ (fun b => b) (in_freq_use i).
    Definition freq_arr_use : list Q := map (fun f => (in_freq i f / 1000000)%Q) freq_i_use.
    Definition tile_i_use : list nat := where_ (fun b => b) (in_tile_use i).

    (** cal_sol_amp … cal_res_phase at a polarisation and a tile (calibration.py:47-66) *)
    Definition sol_amp (p t : nat) : list V := map (fun f => vabs (in_gain i p f t)) freq_i_use.
    Definition sol_phase (p t : nat) : list V := map (fun f => varg (in_gain i p f t)) freq_i_use.
    Definition raw_amp (p t : nat) : list V :=
      map (fun f => vabs (gadd (in_gain i p f t) (in_residual i p f t))) freq_i_use.
    Definition raw_phase (p t : nat) : list V :=
      map (fun f => varg (gadd (in_gain i p f t) (in_residual i p f t))) freq_i_use.
    Definition minus (a b : list V) : list V := map (fun ab => vsub (fst ab) (snd ab)) (combine a b).
    Definition res_amp (p t : nat) : list V := minus (raw_amp p t) (sol_amp p t).
    Definition res_phase (p t : nat) : list V := minus (unwrap (raw_phase p t)) (unwrap (sol_phase p t)).

    (** All the numbers of such an array. *)
    Definition values (c : nat -> nat -> list V) : list V :=
      flat_map (fun p => flat_map (fun t => c p t) (seq 0 (in_n_tile i))) (seq 0 (in_n_pol i)).

    (** [np.nanmin(c), np.nanmax(c)] (calibration.py:69-73): an empty array raises ValueError. *)
    Definition minmax (c : nat -> nat -> list V) : result (V * V) :=
      match values c with [] => Err ValueError | l => Ok (nanmin l, nanmax l) end.

    (** set_ylim (calibration.py:135-140): limits which are not finite raise ValueError. *)
    Definition set_ylim (l : V * V) : result (V * V) :=
      if isfinite (fst l) && isfinite (snd l) then Ok l else Err ValueError.

    Definition n_rows : nat := 8.
    Definition n_cols : nat := 16.
    (** calibration.py:92 *)
    Definition n_pages : nat := in_n_tile i / (n_cols * n_rows).

    (** calibration.py:108-111.  Python's difference may be negative, and range of it is empty:
        the subtraction of [nat] has the same effect. *)
    Definition page_tiles (page_i : nat) : nat :=
      if in_n_tile i / (n_cols * n_rows * (page_i + 1)) =? 0
      then in_n_tile i - n_cols * n_rows * (page_i + 1)
      else n_cols * n_rows.

    (** The polarisations of one tile (calibration.py:160-179). *)
    Definition blank (amp phase : list V) (t : nat) : bool :=
      forallb isnan (amp ++ phase) || negb (existsb (Nat.eqb t) tile_i_use).
    Definition draw (amp phase : nat -> nat -> list V) (t : nat) : list line * bool :=
      (flat_map (fun p => if blank (amp p t) (phase p t) t then []
                          else [Line p freq_arr_use (amp p t) (phase p t)]) (seq 0 (in_n_pol i)),
       existsb (fun p => blank (amp p t) (phase p t) t) (seq 0 (in_n_pol i))).

    (** One tile on its panel (calibration.py:145-179). *)
    Definition draw_tile (amp phase : nat -> nat -> list V) (page_i t : nat) : result panel :=
      let col := (t - page_i * (n_cols * n_rows)) mod n_cols in
      let row := (t - page_i * (n_cols * n_rows)) / n_cols in
      title <- nth_res (in_tile_names i) ((page_i + 1) * t) ;;
      let d := draw amp phase t in
      Ok (Panel row col title (fst d) (snd d)).

    (** calibration.py:211-214 *)
    Definition page_name (page_i : nat) : string :=
      if 1 <? n_pages then ("_page" ++ show page_i)%string else ""%string.

    (** One page of one type (calibration.py:104-230), inside the directory plots/calibration. *)
    Definition draw_page (amp phase : nat -> nat -> list V) (alim plim : V * V) (aroot proot : string)
        (page_i : nat) : result page :=
      al <- set_ylim alim ;;
      pl <- set_ylim plim ;;
      let tile_start := page_i * (n_cols * n_rows) in
      ps <- map_res (draw_tile amp phase page_i) (seq tile_start (page_tiles page_i)) ;;
      Ok (Page (in_obs_id i ++ aroot ++ page_name page_i ++ ".png")%string
               (in_obs_id i ++ proot ++ page_name page_i ++ ".png")%string al pl ps).

    (** plot_cals (calibration.py:10-231): the pages in the order in which they are saved.
        Simplified: an exception is returned without the pages saved before it. *)
    Definition plot_cals : result (list page) :=
      sol_lim <- minmax sol_amp ;;
      res_lim <- minmax res_amp ;;
      raw_lim <- minmax raw_amp ;;
      turn_lim <- minmax res_phase ;;
      if (2 <? in_n_pol i) || (List.length (in_pol_names i) <? in_n_pol i) then Err IndexError
      else
        a <- map_res (draw_page sol_amp sol_phase sol_lim full_turn "_cal_amp" "_cal_phase") (seq 0 n_pages) ;;
        b <- map_res (draw_page res_amp res_phase res_lim turn_lim "_cal_residual_amp" "_cal_residual_phase") (seq 0 n_pages) ;;
        c <- map_res (draw_page raw_amp raw_phase raw_lim full_turn "_cal_raw_amp" "_cal_raw_phase") (seq 0 n_pages) ;;
        Ok (a ++ b ++ c).
  End Input.
End PlotCal.
Arguments plot_input : clear implicits.
Arguments line : clear implicits.
Arguments panel : clear implicits.
Arguments page : clear implicits.
