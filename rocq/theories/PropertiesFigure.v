(** Property theorems C77: the figure of an orbit plot. *)
From Coq Require Import Reals String Ascii Arith List.
From Verif Require Import Py PyFloat Params ParamsSpec Basis RVModel Likelihood LikeBuild ExLike TelPlot TelPlotSpec Panels PanelSpec PanelMade Figure FigureSpec FigureThms.
Import ListNotations.
Open Scope nat_scope.

(** * C77 *)
(** A figure has the panel of all velocities on top, the residuals below it and, unless they are not wanted, one panel
    for each planet in the order of their numbers, along the rows of a grid of the columns asked for; every panel shows
    what C76 says, of one and the same fit. *)
Theorem C77_figure : forall use_c fuel argsort q ds b names E epoch xlim save f nobin hl fm rms ncols nrows nophase letters fm' axs,
  fit_of q ds b names E -> plot_init use_c fuel q epoch xlim save = Ok f ->
  plot_multipanel use_c fuel argsort q f nobin hl fm rms ncols nrows nophase letters = Ok (fm', axs) ->
  let num := ps_num (q_params q) in let cols := columns ncols in exists S rows a1 a2 rest,
    solution_of use_c fuel q ds names E (f_rows f) (times ds ++ f_mt f) S /\ rows_of num cols nrows rows /\ axs = a1 :: a2 :: rest /\
    (exists p, a_place a1 = Upper 0 /\ a_shows a1 = OfTimes p /\
       shows ds (f_mt f) S epoch hl (velocity S) (fun t => planets S (all_planets num) t + trend S t)%R p) /\
    (exists p, a_place a2 = Upper 1 /\ a_shows a2 = OfTimes p /\ shows ds (f_mt f) S epoch hl (residual S num) (fun _ => 0%R) p) /\
    length rest = (if nophase then 0 else num) /\
    (forall i a, nth_error rest i = Some a -> exists row col p bins, a_place a = Cell row col /\ cell_number cols row col i /\ row < Nat.max 1 rows /\
       a_shows a = OfPhase (i + 1) p bins /\ shows_phase argsort ds (f_mt f) S num (i + 1) names (E (i + 1)) nobin hl p bins).
Proof. exact fig_main. Qed.
Print Assumptions C77_figure.

Example C77_figure_ex : (exists f fm' axs, plot_init true 29 (xq exl_x true) 0 None false = Ok f /\
    plot_multipanel true 29 xq_sort (xq exl_x true) f false true [] true (Some 2) None false true = Ok (fm', axs)) /\
  ps_num (q_params (xq exl_x true)) = 1 /\ rows_of 3 2 None 2 /\ cell_number 2 1 0 2.
Proof.
  split. { destruct (xq_made 0 None false) as (f & F). destruct (xq_figure (Some 2) false true ltac:(discriminate) (or_intror eq_refl) 0%R None false f F) as (fm & axs & A). eauto. }
  split; [exact (proj2 (proj2 xq_colours))|]. split; [|split; [repeat constructor|reflexivity]].
  split; [repeat constructor|]. unfold enough. intros [|[|r]] H; [inversion H| |repeat apply le_n_S; apply Nat.le_0_l]. exfalso. apply (Nat.nle_succ_diag_l 2). exact H.
Qed.

(** The panels are marked a, b, c and so on, each with a letter of its own; or none is. *)
Theorem C77_letters : forall use_c fuel argsort q ds b names E epoch xlim save f nobin hl fm rms ncols nrows nophase letters fm' axs,
  fit_of q ds b names E -> plot_init use_c fuel q epoch xlim save = Ok f ->
  plot_multipanel use_c fuel argsort q f nobin hl fm rms ncols nrows nophase letters = Ok (fm', axs) ->
  forall i a, nth_error axs i = Some a ->
    (letters = false -> a_letter a = None) /\
    (letters = true -> exists c, a_letter a = Some c /\ (i < 26 -> is_letter i c) /\ forall j a', nth_error axs j = Some a' -> a_letter a' = Some c -> j = i).
Proof. exact fig_letters. Qed.
Print Assumptions C77_letters.

Example C77_letters_ex : is_letter 0 97 /\ is_letter 2 99 /\ exists f fm' axs, plot_init true 29 (xq exl_x true) 0 None false = Ok f /\
  plot_multipanel true 29 xq_sort (xq exl_x true) f false true [] true None None true false = Ok (fm', axs).
Proof.
  split; [exists "a"%char; auto|]. split; [exists "c"%char; auto|].
  destruct (xq_made 0 None false) as (f & F). destruct (xq_figure None true false ltac:(discriminate) (or_introl eq_refl) 0%R None false f F) as (fm & axs & A). eauto.
Qed.

(** Below the first panel an instrument looks the same in all panels; in the first too if the user's formats all have
    a colour. *)
Theorem C77_alike : forall use_c fuel argsort q ds b names E epoch xlim save f nobin hl fm rms ncols nrows nophase letters fm' axs,
  fit_of q ds b names E -> plot_init use_c fuel q epoch xlim save = Ok f -> formats_wf fm ->
  plot_multipanel use_c fuel argsort q f nobin hl fm rms ncols nrows nophase letters = Ok (fm', axs) ->
  forall i j a a', nth_error axs i = Some a -> nth_error axs j = Some a' -> (1 <= i /\ 1 <= j) \/ settled fm (tels ds) -> alike a a'.
Proof. exact fig_alike. Qed.
Print Assumptions C77_alike.

Example C77_alike_ex : formats_wf [("a"%string, [("color"%string, "red"%string)])] /\ settled [("a"%string, [("color"%string, "red"%string)])] (tels (exl_data exl_x [])).
Proof. exact xq_settled. Qed.

(** A figure is drawn if there are colours and cells enough and, when planets have panels, letters are wanted. *)
Theorem C77_made_partial : forall use_c fuel argsort q ds b names E epoch xlim save f nobin hl fm rms ncols nrows nophase letters,
  fit_of q ds b names E -> plot_init use_c fuel q epoch xlim save = Ok f ->
  (forall l i, In i (argsort l) -> i < length l) -> formats_wf fm -> colours_suffice fm (tels ds) ->
  let num := ps_num (q_params q) in let cols := columns ncols in
  cols <> 0 -> (nophase = true \/ num = 0 \/ letters = true /\ forall r, nrows = Some r -> enough num r cols) ->
  exists fm' axs, plot_multipanel use_c fuel argsort q f nobin hl fm rms ncols nrows nophase letters = Ok (fm', axs).
Proof. exact fig_ok. Qed.
Print Assumptions C77_made_partial.

Example C77_made_partial_ex : formats_wf [] /\ colours_suffice [] (tels (exl_data exl_x [])) /\ forall l i, In i (xq_sort l) -> i < length l.
Proof. split; [exact (proj1 xq_colours)|]. split; [exact (proj1 (proj2 xq_colours))|exact xq_sort_in]. Qed.

(** Full claim: a figure is drawn with any of its options.  False: without letters there are no panels of planets, nor
    with no columns or with fewer cells than planets. *)
Theorem C77_made_refuted : forall use_c fuel argsort q f nobin hl fm rms ncols nrows letters fm' axs, let num := ps_num (q_params q) in let cols := columns ncols in
  (letters = false /\ 1 <= num) \/ (cols = 0 /\ 1 <= num) \/ (exists r, nrows = Some r /\ Nat.max 1 r * cols < num) ->
  plot_multipanel use_c fuel argsort q f nobin hl fm rms ncols nrows false letters <> Ok (fm', axs).
Proof. exact fig_refuted. Qed.
Print Assumptions C77_made_refuted.

Example C77_made_refuted_ex : 1 <= ps_num (q_params (xq exl_x true)) /\ exists f, plot_init true 29 (xq exl_x true) 0 None false = Ok f.
Proof. split; [rewrite (proj2 (proj2 xq_colours)); repeat constructor|exact (xq_made 0 None false)]. Qed.
