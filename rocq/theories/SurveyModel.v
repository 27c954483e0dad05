(* Model of examples/BartmanSzwarc_Bagirrov_Ochal_2025.py (bbo) 460-474 partition and of
   examples/Makela_et_al_1998.py (mak) 243-333 plot_losses: its tables, not the drawing.
   Floating point numbers are real numbers. *)
From Coq Require Import Reals List String.
From Verif Require Import PyModel.
Import ListNotations.
Local Open Scope R_scope.

(* bbo:469-472  the loop: the points after curr; i counts the rounds *)
Fixpoint walk (first_part p curr : R) (i n : nat) : list R :=
  match n with
  | O => []
  | S n => let curr := curr + first_part * p ^ i in curr :: walk first_part p curr (i + 1) n
  end.
(* bbo:460-474  partition; num is not negative *)
Definition partition (start stop : R) (num : nat) (p : R) : result (list R) :=
  let length := stop - start in
  let grad := if Req_EM_T p 1 then INR num else (1 - p ^ num) / (1 - p) in
  if Req_EM_T grad 0 then Err ZeroDivision
  else Ok (start :: walk (length / grad) p start 0 num).

(* mak:248-257  the keys of plot_data with their labels *)
Definition plot_data : list (string * string) :=
  [("BFGS", "BFGS"); ("gradiented BFGS", "BFGS (subgrad)"); ("CG", "CG"); ("gradient CG", "CG (subgrad)");
   ("Powell", "Powell"); ("qsm", "subgradient"); ("globqsm", "global subgradient"); ("Adam", "adam")]%string.
Fixpoint plot_label (key : string) (d : list (string * string)) : result string :=
  match d with
  | [] => Err (KeyError key)
  | (k, v) :: d => if string_dec key k then Ok v else plot_label key d
  end.
(* mak:258-261  data: the labels of the recorded methods *)
Fixpoint plot_labels (methods : list string) : result (list string) :=
  match methods with
  | [] => Ok []
  | m :: methods => bind (plot_label m plot_data) (fun v => bind (plot_labels methods) (fun l => Ok (v :: l)))
  end.
(* mak:415  the methods of the example run as a script *)
Definition script_methods : list string :=
  ["gradiented BFGS"; "gradiented CG"; "BFGS"; "CG"; "Powell"; "globqsm"; "qsm"; "adam"]%string.
(* bbo:398-407  those of survey *)
Definition survey_methods : list string := ["BFGS"; "CG"; "qsm"]%string.

(* mak:293-296  min over the methods with a loss for this force *)
Fixpoint least (x : R) (l : list R) : R :=
  match l with [] => x | y :: l => Rmin x (least y l) end.
Inductive mark := Best | Near | Fail.
(* mak:298-307  the marker of a loss *)
Definition marker (best loss : R) : mark :=
  if Req_EM_T loss best then Best
  else if Rle_dec loss (best * (9 / 10) + 1 / 100) then Near
  else Fail.
