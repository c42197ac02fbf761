(** Model of Parameters.tex_labels and _planet_texlabel, radvel/model.py:131-174, with the table texdict,
    model.py:8-35.  Characters are bytes; str.isdigit is modelled for ASCII digits. *)
From Coq Require Import String Ascii Arith Bool List.
From Verif Require Import Py Params Likelihood ParTable.
Import ListNotations.
Open Scope string_scope.

(** model.py:8-35 *)
Definition texdict : dict string :=
  [("per", "P"); ("logper", "\ln{P}"); ("logk", "\ln{K}"); ("tc", "T\rm{conj}");
   ("secosw", "\sqrt{e}\cos{\omega}"); ("sesinw", "\sqrt{e}\sin{\omega}"); ("ecosw", "e\cos{\omega}"); ("esinw", "e\sin{\omega}");
   ("e", "e"); ("w", "\omega"); ("tp", "T\rm{peri}"); ("k", "K");
   ("gamma_", "\gamma_{\rm "); ("logjit_", "\ln{\sigma_{\rm jit}}_{\rm "); ("jit_", "\sigma_{\rm ");
   ("dvdt", "\dot{\gamma}"); ("curv", "\ddot{\gamma}");
   ("gp_amp", "\eta_{1}"); ("gp_explength", "\eta_{2}"); ("gp_per", "\eta_{3}"); ("gp_perlength", "\eta_{4}"); ("gp_length", "\eta_{2}");
   ("gp_B", "B"); ("gp_C", "C"); ("gp_L", "L"); ("gp_Prot", "P_{\rm rot}")].

(** k.replace(s, r), s not empty *)
Fixpoint subst_all (fuel : nat) (s r k : string) : string :=
  match fuel with
  | O => k
  | S f =>
      match strip_prefix s k with
      | Some rest => r ++ subst_all f s r rest
      | None => match k with "" => "" | String c k' => String c (subst_all f s r k') end
      end
  end.
Definition replace_by (s r k : string) : string := subst_all (S (String.length k)) s r k.

(** k[-1] *)
Fixpoint last_char (k : string) : option ascii :=
  match k with "" => None | String c "" => Some c | String _ r => last_char r end.
(** n.isdigit(), int(n) *)
Definition digit_of (c : ascii) : option nat :=
  if (48 <=? nat_of_ascii c)%nat && (nat_of_ascii c <=? 57)%nat then Some (nat_of_ascii c - 48) else None.

(** _planet_texlabel, model.py:168-174 *)
Definition planet_texlabel (letters : option (list (nat * string))) (parameter : string) (num : nat) : res string :=
  let pname := match dget texdict parameter with Some t => t | None => parameter end in
  do lett <- match letters with
             | Some d => match find (fun e => Nat.eqb (fst e) num) d with Some e => Ok (snd e) | None => Err (KeyError (str_nat num)) end
             | None => Ok (String (ascii_of_nat (num + 97)) "")
             end;
  Ok ("$" ++ pname ++ "_{" ++ lett ++ "}$").

(** the loop over texdict, model.py:154-158; [acc]: tex_labels.get(k) *)
Definition scan_step (k : string) (acc : option string) (e : string * string) : option string :=
  if substr_in (fst e) k && (1 <? String.length (fst e))%nat then
    let l := "$" ++ replace_by (fst e) (snd e) k ++ "}$" in
    Some (if startswith k "gp_" then replace_by "}_" ", \rm " l else l)
  else acc.
(** one key, model.py:146-161; [acc]: tex_labels.get(k) *)
Definition tex_label (pp : list string) (letters : option (list (nat * string))) (k : string) (acc : option string) : res string :=
  match last_char k with
  | None => Err IndexError
  | Some c =>
      let p := butlast k in
      do a <- match digit_of c with
              | Some n => if negb (substr_in "gamma" p) && negb (substr_in "jit" p) then do l <- planet_texlabel letters p n; Ok (Some (Some l)) else Ok None
              | None => Ok None
              end;
      let a := match a with
               | Some l => l
               | None => if dmem texdict k then match dget texdict k with Some t => Some ("$" ++ t ++ "$") | None => acc end
                         else if existsb (String.eqb p) pp then acc else fold_left (scan_step k) texdict acc
               end in
      Ok (match a with Some l => l | None => k end)
  end.
(** model.py:141-163 *)
Definition tex_labels (pp : list string) (letters : option (list (nat * string))) (param_list : list string) : res (dict string) :=
  for_each param_list (fun d k => do l <- tex_label pp letters k (dget d k); Ok (dset d k l)) [].
