(** Property theorems C63: decorrelation against other columns. *)
From Coq Require Import Reals String Ascii Arith Bool List.
From Coquelicot Require Import Coquelicot.
From Verif Require Import Py PyFloat Params Kepler Basis RVModel Likelihood LikeSpec LikeDensity DecorrSpec DecorrProofs Setup DecorrThms.
Import ListNotations.
Open Scope R_scope.

(** * C63 *)
(** Names that keep the terms apart: the residuals are those of the data from which, for every
    variable, coefficient times deviation from the average has been subtracted. *)
Theorem C63_residuals_partial : forall fwd l v data f g gam sfx vars coef col,
  has_data l data -> fwd v (l_x l) = Ok (map f (l_x l)) -> nth_error v (l_gidx l) = Some g ->
  marginalised g = false -> r_val g = Some gam ->
  decorrelates l v (length data) sfx vars coef col -> apart sfx vars ->
  rv_residuals fwd l v = (v, Ok (map (fun p => d_y p - gam - f (d_t p)) (corrected (map (fun d => (coef d, col d)) vars) data))).
Proof. exact decorr_residuals. Qed.
Print Assumptions C63_residuals_partial.

Example C63_residuals_partial_ex : decorrelates (xd_like xd_vars [[3; 4]; [0; 2]]) (xd_rows [7; 8]) (length xd_data) "_k" xd_vars xd_coef xd_cols /\
  apart "_k" xd_vars /\ has_data (xd_like xd_vars [[3; 4]; [0; 2]]) xd_data /\
  rv_residuals xd_fwd (xd_like xd_vars [[3; 4]; [0; 2]]) (xd_rows [7; 8]) =
    (xd_rows [7; 8], Ok (map (fun p => d_y p - 1 - 0) (corrected [(7, [3; 4]); (8, [0; 2])] xd_data))).
Proof.
  split; [exact xd_decorrelates|]. split; [exact xd_apart|]. split; [repeat split|].
  apply (C63_residuals_partial xd_fwd (xd_like xd_vars [[3; 4]; [0; 2]]) (xd_rows [7; 8]) xd_data (fun _ => 0) (mkRow (Some 1) true None false) 1 "_k" xd_vars xd_coef xd_cols);
    try reflexivity; [repeat split|exact xd_decorrelates|exact xd_apart].
Qed.

(** The log-likelihood is the Gaussian log-likelihood of the corrected data. *)
Theorem C63_logprob_partial : forall fwd l v data f g gam jit sfx vars coef col,
  has_data l data -> fwd v (l_x l) = Ok (map f (l_x l)) -> nth_error v (l_gidx l) = Some g ->
  marginalised g = false -> r_val g = Some gam -> vget v (l_jidx l) = Ok jit -> (forall p, In p data -> 0 < var_of jit p) ->
  decorrelates l v (length data) sfx vars coef col -> apart sfx vars ->
  rv_logprob fwd l v = (v, Ok (Fin (gauss_loglike f gam jit (corrected (map (fun d => (coef d, col d)) vars) data)))).
Proof. exact decorr_logprob. Qed.
Print Assumptions C63_logprob_partial.

(** A marginalised offset: the value found is below the integral over the offset, by the squared
    distance of the offset used (best for the uncorrected data) from the best one. *)
Theorem C63_marginal_partial : forall fwd l v data f g jit sfx vars coef col,
  has_data l data -> fwd v (l_x l) = Ok (map f (l_x l)) -> nth_error v (l_gidx l) = Some g ->
  r_lin g = true -> r_vary g = false -> vget v (l_jidx l) = Ok jit -> data <> [] -> (forall p, In p data -> 0 < var_of jit p) ->
  decorrelates l v (length data) sfx vars coef col -> apart sfx vars ->
  let data' := corrected (map (fun d => (coef d, col d)) vars) data in
  exists v1 z z' L I W, rv_logprob fwd l v = (v1, Ok (Fin L)) /\ vget v1 (l_gidx l) = Ok z /\
    (forall c, chi2 f z jit data <= chi2 f c jit data) /\ (forall c, chi2 f z' jit data' <= chi2 f c jit data') /\
    is_RInt_gen (fun c => gauss_like f c jit data') (Rbar_locally m_infty) (Rbar_locally p_infty) I /\ 0 < I /\ 0 < W /\
    L = ln I - W * (z - z') ^ 2.
Proof. exact decorr_marginal. Qed.
Print Assumptions C63_marginal_partial.

Theorem C63_marginal_refuted : exists data' v1 L I, data' = corrected [(4, [0; 2])] xd_data /\
  rv_logprob xd_fwd (xd_like ["temp"%string] [[0; 2]]) xd_mrows = (v1, Ok (Fin L)) /\
  is_RInt_gen (fun c => gauss_like (fun _ => 0) c 0 data') (Rbar_locally m_infty) (Rbar_locally p_infty) I /\ 0 < I /\ L < ln I.
Proof. exact xd_marg. Qed.
Print Assumptions C63_marginal_refuted.

(** The corrections add up to zero, and constants added to the columns do not matter. *)
Theorem C63_centred : forall cols data, (forall c x, In (c, x) cols -> length x = length data) ->
  rsum (map d_y (corrected cols data)) = rsum (map d_y data).
Proof. exact corrected_sum. Qed.
Print Assumptions C63_centred.

Theorem C63_shift : forall fwd l l' v data f g gam sfx vars coef col sh,
  has_data l data -> has_data l' data -> fwd v (l_x l) = Ok (map f (l_x l)) -> nth_error v (l_gidx l) = Some g -> l_gidx l' = l_gidx l ->
  marginalised g = false -> r_val g = Some gam -> apart sfx vars ->
  decorrelates l v (length data) sfx vars coef col ->
  decorrelates l' v (length data) sfx vars coef (fun d => map (fun a => a + sh d) (col d)) ->
  rv_residuals fwd l' v = rv_residuals fwd l v.
Proof. exact decorr_shift. Qed.
Print Assumptions C63_shift.

Example C63_shift_ex : decorrelates (xd_like xd_vars [[3 + 1; 4 + 1]; [0 + 1; 2 + 1]]) (xd_rows [7; 8]) (length xd_data) "_k" xd_vars xd_coef (fun d => map (fun a => a + 1) (xd_cols d)).
Proof.
  split; [reflexivity|]. intros d [<-|[<-|[]]]; (split; [|split; reflexivity]).
  - exists 2%nat. split; [reflexivity|split; [discriminate|reflexivity]].
  - exists 3%nat. split; [reflexivity|split; [discriminate|reflexivity]].
Qed.

(** One variable's name inside another one's: the terms become a polynomial of higher degree. *)
Theorem C63_names_refuted : exists r,
  rv_residuals xd_fwd (xd_like ["air"; "airmass"]%string [[0; 2]; [0; 0]]) (xd_rows [1; 1]) = (xd_rows [1; 1], Ok r) /\
  r = [4; 3] /\ map (fun p => d_y p - 1 - 0) (corrected [(1, [0; 2]); (1, [0; 0])] xd_data) = [5; 4].
Proof. exact xd_mixed. Qed.
Print Assumptions C63_names_refuted.

(** A variable with an underscore in its name cannot be used. *)
Theorem C63_underscore_refuted : forall cs c1 c2,
  rv_residuals xd_fwd (xd_like ["bis_span"%string] [[c1; c2]]) (xd_rows (1 :: cs)) = (xd_rows (1 :: cs), Err (KeyError "bis")).
Proof. exact xd_underscore. Qed.
Print Assumptions C63_underscore_refuted.

(** Instruments with a Gaussian process: the requested decorrelation is silently dropped. *)
Theorem C63_gp_refuted : forall argsort ty h ps vec rows inst vars vecs h1 ps1 vec1 l, ty <> RVLike ->
  make_like argsort ty h ps vec rows inst vars vecs = Ok (h1, ps1, vec1, l) -> l_decorr l = [].
Proof. exact gp_no_decorr. Qed.
Print Assumptions C63_gp_refuted.

Example C63_gp_refuted_ex : forall x, exists vec h1 ps1 vec1 l, vector_init (xd_h x) xd_ps = Ok vec /\
  make_like (fun l => seq 0 (length l)) (GPLike "SqExp" ["gp_length"; "gp_amp"]%string) (xd_h x) xd_ps vec [mkObs (x 20) (x 21) (x 22) "a" [("temp"%string, x 23)]]%nat "a" ["temp"%string] [("temp"%string, [x 23%nat])] = Ok (h1, ps1, vec1, l).
Proof. exact xd_gp. Qed.
