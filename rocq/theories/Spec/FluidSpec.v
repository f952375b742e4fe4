(** Reaction networks: what a set of diffusion equations with chemical
    reactions has to look like, independent of the program. *)
From Coq Require Import Reals List.
Import ListNotations.
Open Scope R_scope.

(** A particle species: its density and its statistical factor. *)
Definition species := (R * R)%type.

(** Rescaled chemical potential of a species. *)
Definition potential (s : species) : R := fst s / snd s.

(** A reaction: its rate and how many particles of each species it removes
    (negative: creates) when it runs forward. *)
Definition reaction := (R * list R)%type.

Definition dot (a b : list R) : R := fold_right Rplus 0 (map (fun p => fst p * snd p) (combine a b)).

(** The affinity that drives a reaction. *)
Definition affinity (ss : list species) (r : reaction) : R := dot (snd r) (map potential ss).

(** Particles of species number [i] gained per time from all reactions. *)
Definition gain (rs : list reaction) (ss : list species) (i : nat) : R :=
  fold_right Rplus 0 (map (fun r => - (fst r * nth i (snd r) 0 * affinity ss r)) rs).

(** Change of the free energy when species number [i] gains [C i] particles. *)
Definition energy_rate (ss : list species) (C : nat -> R) : R :=
  fold_right Rplus 0 (map (fun i => potential (nth i ss (0, 1)) * C i) (seq 0 (length ss))).

(** A density that is carried along with the wall velocity, diffuses and gains
    [C] per time. *)
Definition diffuses (vw D n' n'' C : R) : Prop := vw * n' - D * n'' = C.

(** Reactions of third generation quarks (doublet q, singlets t and b), two
    Higgs doublets, two light quark doublets and four light quark singlets, in
    this order:
    absorption of a top or bottom by the wall, top decay t -> q h, bottom decay
    b h -> q, and the strong sphaleron, which changes all left-handed into
    right-handed quarks. *)
Definition quark_reactions (GMt GMb GYt GYb GSS : R) : list reaction :=
  [ (GMt, [-1; 1; 0;  0; 0;  0; 0;  0; 0; 0; 0]);
    (GMb, [-1; 0; 1;  0; 0;  0; 0;  0; 0; 0; 0]);
    (GYt, [-1; 1; 0; -1; -1; 0; 0;  0; 0; 0; 0]);
    (GYb, [-1; 0; 1;  1; 1;  0; 0;  0; 0; 0; 0]);
    (GSS, [2; -1; -1; 0; 0;  2; 2; -1; -1; -1; -1]) ].

(** The light quarks only take part in the sphaleron process, in equal
    numbers: with density [u] of each singlet a doublet has [-2 u]. *)
Definition quark_species (kq ktR kbR kH kL kR : R) (q t b h1 h2 u : R) : list species :=
  [ (q, kq); (t, ktR); (b, kbR); (h1, kH); (h2, kH);
    (-2 * u, kL); (-2 * u, kL); (u, kR); (u, kR); (u, kR); (u, kR) ].

(** The positions of the left-handed quarks among these species. *)
Definition left_handed_quarks : list nat := [0; 5; 6]%nat.

(** Total density of some of the species. *)
Definition total (ss : list species) (l : list nat) : R :=
  fold_right Rplus 0 (map (fun i => fst (nth i ss (0, 1))) l).

(** Left- and right-handed tau and the Higgs doublets: absorption by the wall
    and the decay tau h -> l. *)
Definition lepton_reactions (GMl GYl : R) : list reaction :=
  [ (GMl, [-1; 1; 0; 0]); (GYl, [-1; 1; 1; 1]) ].
Definition lepton_species (kL kR kH : R) (l tau h1 h2 : R) : list species :=
  [ (l, kL); (tau, kR); (h1, kH); (h2, kH) ].

(** What the eleven quark and Higgs species gain per time if their densities
    [q t b h1 h2 u] have derivatives [w 6 .. w 11] and second derivatives
    [d 6 .. d 11]. *)
Definition eleven_gains (vw Dq Dh : R) (w : nat -> R) (d : list R) : list R :=
  let C := fun i D => vw * w (6 + i)%nat - D * nth (6 + i) d 0 in
  let u := C 5%nat Dq in
  [ C 0%nat Dq; C 1%nat Dq; C 2%nat Dq; C 3%nat Dh; C 4%nat Dh; -2 * u; -2 * u; u; u; u; u ].
