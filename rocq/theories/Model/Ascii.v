(** Model of the text plotter, src/utility/asciiplotter/asciiplotter.cpp.  Doubles are exact rationals; a division by zero
    whose result is cast to int is undefined behaviour. *)
From Coq Require Import QArith Qround ZArith List Ascii.
From Verif.Model Require Import Base.
Import ListNotations.
Local Open Scope Q_scope.

Definition qlt (a b : Q) : bool := negb (Qle_bool b a).
(** max and min of two and of a vector, 57-127; the vector versions read data[0] first *)
Definition max2 (a b : Q) : Q := if qlt b a then a else b.
Definition min2 (a b : Q) : Q := if qlt a b then a else b.
Definition vmax (l : list Q) : outcome Q := match l with [] => UB | a :: r => Ok (fold_left (fun m x => if qlt m x then x else m) r a) end.
Definition vmin (l : list Q) : outcome Q := match l with [] => UB | a :: r => Ok (fold_left (fun m x => if qlt x m then x else m) r a) end.
(** (int) q for a finite q: truncation towards zero, undefined when the result is not an int *)
Definition trunc (q : Q) : Z := if qlt q 0 then Qceiling q else Qfloor q.
Definition to_int (q : Q) : outcome Z := let z := trunc q in if ((- 2 ^ 31 <=? z) && (z <? 2 ^ 31))%Z then Ok z else UB.

(** a curve: its points, its label's length and its marker, asciiplotter.h 47-50 *)
Record curve := mkCurve { cx : list Q; cy : list Q; clabel : nat; cmark : ascii }.
Definition MAX_CURVES : nat := 10.
(** addPlot, 196-205: the arrays have MAX_CURVES entries *)
Definition addPlot (cs : list curve) (c : curve) : outcome (list curve) := if Nat.ltb (length cs) MAX_CURVES then Ok (cs ++ [c]) else UB.
Fixpoint addPlots (cs : list curve) (new : list curve) : outcome (list curve) :=
  match new with [] => Ok cs | c :: r => bind (addPlot cs c) (fun cs' => addPlots cs' r) end.

(** resample, 135-170 *)
(** the bin search 150-161 for one abscissa: an abscissa in no bin leaves the entry 0; a ydata shorter than
    xdata is read out of bounds; a repeated abscissa gives 0/0, whose later cast to int is undefined, and counts as such here *)
Fixpoint bin (xs ys : list Q) (x : Q) : outcome Q :=
  match xs with
  | x1 :: ((x2 :: _) as xr) =>
      if Qle_bool x1 x && Qle_bool x x2 then
        match ys with
        | y1 :: y2 :: _ => if Qeq_bool x1 x2 then UB else Ok (y1 + (y2 - y1) * (x - x1) / (x2 - x1))
        | _ => UB
        end
      else bin xr (tl ys) x
  | _ => Ok 0
  end.
Definition lastq (l : list Q) : outcome Q := match rev l with [] => UB | a :: _ => Ok a end.
Definition firstq (l : list Q) : outcome Q := match l with [] => UB | a :: _ => Ok a end.
Fixpoint mapo {A B} (f : A -> outcome B) (l : list A) : outcome (list B) :=
  match l with [] => Ok [] | a :: r => bind (f a) (fun b => bind (mapo f r) (fun bs => Ok (b :: bs))) end.
Definition set_nth {A} (i : nat) (v : A) (l : list A) : list A := firstn i l ++ v :: skipn (S i) l.
(** write l[i]: outside the vector it is undefined behaviour *)
Definition put {A} (i : nat) (v : A) (l : list A) : outcome (list A) := if Nat.ltb i (length l) then Ok (set_nth i v l) else UB.
(** newlength 1 makes every abscissa 0/0, which lies in no bin; a negative newlength throws std::length_error *)
Definition resample (xs ys : list Q) (newlength : Z) : outcome (list Q) :=
  if (newlength <? 0)%Z then Throw InvalidArgument
  else if (Z.of_nat (length ys) =? newlength)%Z then Ok ys
  else
    let n := Z.to_nat newlength in
    bind (firstq xs) (fun x0 => bind (lastq xs) (fun x9 =>
    bind (if Nat.eqb n 1 then Ok [0] else
          mapo (fun i => bin xs ys (inject_Z (Z.of_nat i) / (inject_Z newlength - 1) * (x9 - x0) + x0)) (seq 0 n)) (fun data =>
    bind (firstq ys) (fun y0 => bind (lastq ys) (fun y9 =>
    bind (put 0 y0 data) (fun data => put (n - 1) y9 data)))))).

(** show, 214-280 *)
Definition plane := list (list ascii).
Definition blank (w h : nat) : plane := repeat (repeat " "%char h) w.
(** plane[i][j] = c *)
Definition mark (i j : nat) (c : ascii) (p : plane) : outcome plane :=
  match nth_error p i with Some col => bind (put j c col) (fun col' => put i col' p) | None => UB end.
(** min(max(0, colindex), _height - 1), on ints *)
Definition clampi (z h : Z) : Z := let a := (if 0 >? z then 0 else z)%Z in if (a <? h - 1)%Z then a else (h - 1)%Z.
(** 270-276; map with ymin = ymax divides by zero *)
Fixpoint draw_column (first : nat) (vals : list Q) (ymin ymax : Q) (h : nat) (c : ascii) (p : plane) : outcome plane :=
  match vals with
  | [] => Ok p
  | v :: r =>
      if Qeq_bool ymax ymin then UB
      else
        bind (to_int ((v - ymin) * inject_Z (Z.of_nat h) / (ymax - ymin))) (fun z =>
        let j := clampi z (Z.of_nat h) in
        if (j <? 0)%Z then UB
        else bind (mark first (Z.to_nat j) c p) (fun p' => draw_column (S first) r ymin ymax h c p'))
  end.
(** 261-269 *)
Definition nBefore (w : nat) (xmin xmax x0 : Q) : Z := Qfloor (inject_Z (Z.of_nat w) * (x0 - xmin) / (xmax - xmin)).
Definition nAfter (w : nat) (xmin xmax x9 : Q) : Z := Qfloor (inject_Z (Z.of_nat w) * (xmax - x9) / (xmax - xmin)).
Definition draw (w h : nat) (xmin xmax ymin ymax : Q) (c : curve) (p : plane) : outcome plane :=
  bind (firstq (cx c)) (fun x0 => bind (lastq (cx c)) (fun x9 =>
  if Qeq_bool xmax xmin then UB
  else
    let nb := nBefore w xmin xmax x0 in
    bind (resample (cx c) (cy c) (Z.of_nat w - nb - nAfter w xmin xmax x9)) (fun vals =>
    draw_column (Z.to_nat nb) vals ymin ymax h (cmark c) p))).
Fixpoint draw_all (w h : nat) (xmin xmax ymin ymax : Q) (cs : list curve) (p : plane) : outcome plane :=
  match cs with [] => Ok p | c :: r => bind (draw w h xmin xmax ymin ymax c p) (fun p' => draw_all w h xmin xmax ymin ymax r p') end.

(** 217-224 *)
Fixpoint x_range (cs : list curve) (acc : Q * Q) : outcome (Q * Q) :=
  match cs with
  | [] => Ok acc
  | c :: r => bind (firstq (cx c)) (fun a => bind (lastq (cx c)) (fun b => x_range r (min2 (fst acc) a, max2 (snd acc) b)))
  end.
(** 226-257 *)
Definition y_start : Q * Q := (1000000000000000 # 1, 1 # 1000000000000000).
Fixpoint y_range (cs : list curve) (acc : Q * Q) : outcome (Q * Q) :=
  match cs with
  | [] => Ok acc
  | c :: r => bind (vmax (cy c)) (fun mx => bind (vmin (cy c)) (fun mn =>
              y_range r (if qlt mn (fst acc) then mn else fst acc, if qlt (snd acc) mx then mx else snd acc)))
  end.
(** std::size_t arithmetic *)
Definition size_t (z : Z) : Z := Z.modulo z (2 ^ 64).
(** blanks in front of the title, 286-290: lmargin.length() is 10 *)
Definition title_pad (w : nat) (title : nat) : Z := size_t (10 + size_t (Z.of_nat w - Z.of_nat title) / 2 - 1).
(** blanks behind a legend entry, 381 *)
Definition legend_pad (w : nat) (label : nat) : Z := size_t (size_t (Z.of_nat w - Z.of_nat label) - 5).
Record shown := mkShown { s_x : Q * Q; s_y : Q * Q; s_plane : plane; s_title : Z; s_legend : list Z }.
(** show: the numbers printed at the corners, the plane, and the padding counts.  xlabel and ylabel are not modelled *)
Definition show (w h : nat) (title : nat) (legend : bool) (cs : list curve) : outcome shown :=
  match cs with
  | [] => UB
  | c0 :: _ =>
      bind (firstq (cx c0)) (fun a => bind (lastq (cx c0)) (fun b =>
      bind (x_range cs (a, b)) (fun xr => bind (y_range cs y_start) (fun yr =>
      bind (draw_all w h (fst xr) (snd xr) (fst yr) (snd yr) cs (blank w h)) (fun p =>
      Ok (mkShown xr yr p (title_pad w title) (if legend then map (fun c => legend_pad w (clabel c)) cs else [])))))))
  end.
