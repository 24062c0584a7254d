(** The leap-frog step of the textbook: Yee's curl update with convolutional PML memory, as
    functions of cell indices.  Nothing here mentions loops, arrays or the code's state. *)
From Coq Require Import ZArith Bool.
From Verif Require Import Scalar GridM.
Local Open Scope Z_scope.

Section Yee.
Context {N : Num}.

(** a quantity given at every cell *)
Definition cells := Z -> Z -> T.

(** update coefficients of the medium, stretched cell sizes and PML recursion coefficients *)
Record medium := Medium {
  mCa : cells; mCb : cells; mDa : cells; mDb : cells;
  sEx : Z -> T; sEy : Z -> T; sHx : Z -> T; sHy : Z -> T;
  bEx : Z -> T; cEx : Z -> T; bEy : Z -> T; cEy : Z -> T;
  bHx : Z -> T; cHx : Z -> T; bHy : Z -> T; cHy : Z -> T }.

(** Ez and the four PML memories that feed it: [xl]/[xh] of the layers at low/high i,
    [yl]/[yh] of those at low/high j.  Memory (i, j) of a high layer is i (j) cells from
    the far edge. *)
Record emag := Emag { eE : cells; eXl : cells; eXh : cells; eYl : cells; eYh : cells }.
(** Hx with its two memories (y layers), Hy with its two memories (x layers) *)
Record hmag := Hmag { hX : cells; hXl : cells; hXh : cells; hY : cells; hYl : cells; hYh : cells }.

Section Step.
(** n by m cells, th the number of cells of an electric PML layer, cell size dx *)
Variables (n m th : Z) (dx : T) (md : medium).

(** the recursive convolution *)
Definition recur (b c q d : T) : T := (b * q + c * d / dx)%num.

(** cells strictly inside the grid *)
Definition core (i j : Z) : bool := (1 <=? i) && (i <? n - 1) && (1 <=? j) && (j <? m - 1).

Section E.
Variables (hx hy : cells).
Definition memXl (q : cells) : cells := fun i j =>
  if (1 <=? i) && (i <=? th) && (1 <=? j) && (j <? m - 1)
  then recur (bEx md i) (cEx md i) (q i j) (hy i j - hy (i - 1)%Z j)%num else q i j.
Definition memXh (q : cells) : cells := fun i j =>
  if (1 <=? i) && (i <=? th) && (1 <=? j) && (j <? m - 1)
  then recur (bEx md i) (cEx md i) (q i j) (hy (n - 1 - i)%Z j - hy (n - 1 - i - 1)%Z j)%num else q i j.
Definition memYl (q : cells) : cells := fun i j =>
  if (1 <=? i) && (i <? n - 1) && (1 <=? j) && (j <=? th)
  then recur (bEy md j) (cEy md j) (q i j) (hx i j - hx i (j - 1)%Z)%num else q i j.
Definition memYh (q : cells) : cells := fun i j =>
  if (1 <=? i) && (i <? n - 1) && (1 <=? j) && (j <=? th)
  then recur (bEy md j) (cEy md j) (q i j) (hx i (m - 1 - j)%Z - hx i (m - 1 - j - 1)%Z)%num else q i j.

(** Yee update of Ez *)
Definition yeeE (e : cells) : cells := fun i j =>
  (mCa md i j * e i j
   + mCb md i j * ((hy i j - hy (i - 1)%Z j) / sEx md i + (hx i (j - 1)%Z - hx i j) / sEy md j))%num.
(** contribution of the y layers, then of the x layers *)
Definition addY (yl yh e : cells) : cells := fun i j =>
  if j <=? th then (e i j - mCb md i j * yl i j)%num
  else if m - 1 - th <=? j then (e i j - mCb md i j * yh i (m - 1 - j)%Z)%num
  else e i j.
Definition addX (xl xh e : cells) : cells := fun i j =>
  if i <=? th then (e i j + mCb md i j * xl i j)%num
  else if n - 1 - th <=? i then (e i j + mCb md i j * xh (n - 1 - i)%Z j)%num
  else e i j.

Definition next_e (u : emag) : emag :=
  let yl := memYl (eYl u) in let yh := memYh (eYh u) in
  let xl := memXl (eXl u) in let xh := memXh (eXh u) in
  Emag (fun i j => if core i j then addX xl xh (addY yl yh (yeeE (eE u))) i j else eE u i j)
       xl xh yl yh.
End E.

Section H.
Variable e : cells.
Definition memHxl (q : cells) : cells := fun i j =>
  if (1 <=? i) && (i <? n - 1) && (1 <=? j) && (j <? th)
  then recur (bHy md j) (cHy md j) (q i j) (e i (j + 1)%Z - e i j)%num else q i j.
Definition memHxh (q : cells) : cells := fun i j =>
  if (1 <=? i) && (i <? n - 1) && (1 <=? j) && (j <? th)
  then recur (bHy md j) (cHy md j) (q i j) (e i (m - 1 - j)%Z - e i (m - 1 - j - 1)%Z)%num else q i j.
Definition memHyl (q : cells) : cells := fun i j =>
  if (1 <=? i) && (i <? th) && (1 <=? j) && (j <? m - 1)
  then recur (bHx md i) (cHx md i) (q i j) (e (i + 1)%Z j - e i j)%num else q i j.
Definition memHyh (q : cells) : cells := fun i j =>
  if (1 <=? i) && (i <? th) && (1 <=? j) && (j <? m - 1)
  then recur (bHx md i) (cHx md i) (q i j) (e (n - 1 - i)%Z j - e (n - 1 - i - 1)%Z j)%num else q i j.

(** Yee updates of Hx and Hy *)
Definition yeeHx (hx : cells) : cells := fun i j =>
  (mDa md i j * hx i j - mDb md i j * (e i (j + 1)%Z - e i j) / sHy md j)%num.
Definition yeeHy (hy : cells) : cells := fun i j =>
  (mDa md i j * hy i j + mDb md i j * (e (i + 1)%Z j - e i j) / sHx md i)%num.
Definition addHx (l h hx : cells) : cells := fun i j =>
  if j <? th then (hx i j - mDb md i j * l i j)%num
  else if (m - 1 - th <=? j) && (j <? m - 2) then (hx i j - mDb md i j * h i (m - 2 - j)%Z)%num
  else hx i j.
Definition addHy (l h hy : cells) : cells := fun i j =>
  if i <? th then (hy i j + mDb md i j * l i j)%num
  else if (n - 1 - th <=? i) && (i <? n - 2) then (hy i j + mDb md i j * h (n - 2 - i)%Z j)%num
  else hy i j.

Definition next_h (u : hmag) : hmag :=
  let xl := memHxl (hXl u) in let xh := memHxh (hXh u) in
  let yl := memHyl (hYl u) in let yh := memHyh (hYh u) in
  Hmag (fun i j => if core i j then addHx xl xh (yeeHx (hX u)) i j else hX u i j) xl xh
       (fun i j => if core i j then addHy yl yh (yeeHy (hY u)) i j else hY u i j) yl yh.
End H.

(** one leap-frog step: Ez from the old H, then H from the new Ez *)
Definition yee_step (u : emag * hmag) : emag * hmag :=
  let e := next_e (hX (snd u)) (hY (snd u)) (fst u) in
  (e, next_h (eE e) (snd u)).
End Step.

(** ** Convolutional PML profiles (Roden and Gedney) of a layer of th cells; t is the distance
    from the outer edge in cells.  Polynomial grading of order 3, kappa_max = 1,
    alpha_max = 0.2, sigma_max = 0.8 (3 + 1) / dx. *)
Section Cpml.
Variables (th : Z) (dx dt : T).
Definition depth (t : T) : T := ((nofZ th - t) / nofZ (th - 1)%Z)%num.
Definition sigma (t : T) : T := (nofQ 4 5 * nofZ 4 / dx * 1 * npow (depth t) 3)%num.
Definition kappa (t : T) : T := (1 + (1 - 1) * npow (depth t) 3)%num.
Definition alpha (t : T) : T := (nofQ 1 5 * npow ((t - 1) / nofZ (th - 1)%Z) 1)%num.
Definition cpml_b (t : T) : T := nexp (- dt * (sigma t / kappa t + alpha t))%num.
Definition cpml_c (t : T) : T :=
  (sigma t / (sigma t * kappa t + npow (kappa t) 2 * alpha t) * (cpml_b t - 1))%num.
End Cpml.

(** the recursion coefficients and stretched cell sizes of grid g: electric quantities at whole
    cells, magnetic ones half a cell further in, both layers of both axes *)
Definition cpml_coefs (g : grid) (md : medium) : Prop :=
  let th := g_pml g in let dx := g_dx g in let dt := g_dt g in
  let b := cpml_b th dx dt in let c := cpml_c th dx dt in let k := kappa th in
  (forall d, 0 <= d <= th ->
     (bEx md d = b (nofZ d) /\ cEx md d = c (nofZ d) /\ bEy md d = b (nofZ d) /\ cEy md d = c (nofZ d)) /\
     (bHx md d = b (nofZ d + half)%num /\ cHx md d = c (nofZ d + half)%num /\
      bHy md d = b (nofZ d + half)%num /\ cHy md d = c (nofZ d + half)%num)) /\
  (forall d, 0 <= d < th ->
     (sEx md d = (k (nofZ d) * dx)%num /\ sEy md d = (k (nofZ d) * dx)%num /\
      sEx md (g_Nx g - 1 - d) = (k (nofZ d) * dx)%num /\ sEy md (g_Ny g - 1 - d) = (k (nofZ d) * dx)%num) /\
     (sHx md d = (k (nofZ d + half) * dx)%num /\ sHy md d = (k (nofZ d + half) * dx)%num /\
      sHx md (g_Nx g - 1 - d) = (k (nofZ d - half) * dx)%num /\
      sHy md (g_Ny g - 1 - d) = (k (nofZ d - half) * dx)%num)) /\
  (forall i, th <= i <= g_Nx g - 1 - th -> sEx md i = (dx * 1)%num /\ sHx md i = (dx * 1)%num) /\
  (forall j, th <= j <= g_Ny g - 1 - th -> sEy md j = (dx * 1)%num /\ sHy md j = (dx * 1)%num).

(** equality of all cells *)
Definition same (a b : cells) : Prop := forall i j, a i j = b i j.
Definition same_e (a b : emag) : Prop :=
  same (eE a) (eE b) /\ same (eXl a) (eXl b) /\ same (eXh a) (eXh b) /\
  same (eYl a) (eYl b) /\ same (eYh a) (eYh b).
Definition same_h (a b : hmag) : Prop :=
  same (hX a) (hX b) /\ same (hXl a) (hXl b) /\ same (hXh a) (hXh b) /\
  same (hY a) (hY b) /\ same (hYl a) (hYl b) /\ same (hYh a) (hYh b).

End Yee.
