(** moles of element e per unit mass of a mixture with mass fractions Y *)
Definition elementContent (t : list formula) (th : thtr) (nsp : Z) (e : elem) (Y : Z -> R) : R :=
  sumZ 0 nsp (fun n => IZR (atomsOf t n e) * (Y n / MW th n)).
(** the molecular weights are sums of atomic weights *)
Definition atomicWeights (t : list formula) (th : thtr) (nsp : Z) (w : elem -> R) : Prop :=
  forall n, (0 <= n < nsp)%Z -> MW th n = IZR (atomsOf t n eH) * w eH + IZR (atomsOf t n eC) * w eC + IZR (atomsOf t n eO) * w eO
                                        + IZR (atomsOf t n eN) * w eN + IZR (atomsOf t n eAr) * w eAr.
Definition positiveMW (th : thtr) (nsp : Z) : Prop := forall n, (0 <= n < nsp)%Z -> 0 < MW th n.
(** the power with which species n enters a concentration product, and the net molecularity of a reaction *)
Definition power (l : list (Z * Z)) (n : Z) : Z := fold_right (fun ip s => if fst ip =? n then snd ip + s else s)%Z 0%Z l.
Definition net (r : reac) (n : Z) : Z := (power (rB r) n - power (rF r) n)%Z.
(** chemical potential over Ru*T of species n at concentration c, given its standard value g at 1 atm (prefRuT = p_atm / (Ru T)) *)
Definition potential (gbs cs : Z -> R) (prefRuT : R) (n : Z) : R := gbs n + ln (cs n / prefRuT).
(** Gibbs energy change of a reaction, over Ru*T *)
Definition reactionGibbs (nsp : Z) (r : reac) (mu : Z -> R) : R := sumZ 0 nsp (fun n => IZR (net r n) * mu n).
(** increment of the partial densities made by the kernel, the last species holding the rest of the (unchanged) density *)
Definition increments (nsp : Z) (dQ dQ' : Z -> R) (n : Z) : R :=
  if (n =? nsp - 1)%Z then - sumZ 0 (nsp - 1) (fun m => dQ' (5 + m)%Z - dQ (5 + m)%Z) else dQ' (5 + n)%Z - dQ (5 + n)%Z.
