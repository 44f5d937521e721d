(** C155: the first-order upwind schemes make no new extrema of composition. *)
From Coq Require Import Reals ZArith List Bool Lra Lia Psatz.
From Verif Require Import L_Vec M_Topology M_Halo M_Grid M_Metrics S_Metrics P_Metrics M_Flux S_Flux P_Flux M_FluxKernels S_FluxKernels P_FluxKernels P_FluxSym P_FreeStream S_Upwind.
Import ListNotations.
Open Scope R_scope.

(** what a face passes: [a] from the low side and [b] from the high side, with their own compositions *)
Definition donor (f : flux1) (g : fgeo) (st : Z -> cell) (a b : R) : Prop :=
  0 <= a /\ 0 <= b /\ f g st 0%Z = a - b /\ forall l, (5 <= l)%Z -> f g st l = a * cq (st (-1)%Z) l - b * cq (st 0%Z) l.
Lemma comp5 C mx my mz e sp l : (5 <= l)%Z -> comp C mx my mz e sp l = sp l.
Proof. intros H. unfold comp. replace (l =? 0)%Z with false by lia. replace (l =? 1)%Z with false by lia. replace (l =? 2)%Z with false by lia. replace (l =? 3)%Z with false by lia. replace (l =? 4)%Z with false by lia. auto. Qed.
Lemma cell_step (V dt r o y lo hi : R) (ins : list (R * R)) : 0 < V -> 0 <= dt -> dt * o <= V * r -> lo <= y <= hi -> Forall (fun '(m, z) => 0 <= m /\ lo <= z <= hi) ins ->
  let r' := r + dt / V * (fold_right (fun '(m, _) s => m + s) 0 ins - o) in let q' := r * y + dt / V * (fold_right (fun '(m, z) s => m * z + s) 0 ins - o * y) in
  0 <= r' /\ lo * r' <= q' <= hi * r'.
Proof.
  intros HV Ht Ho Hy HI r' q'.
  assert (S : 0 <= fold_right (fun '(m, _) s => m + s) 0 ins /\ lo * fold_right (fun '(m, _) s => m + s) 0 ins <= fold_right (fun '(m, z) s => m * z + s) 0 ins <= hi * fold_right (fun '(m, _) s => m + s) 0 ins).
  { clear - HI. induction HI as [|[m z] ins [H1 H2] _ IH]; cbn [fold_right]; [lra|]. destruct IH as (I1 & I2 & I3). split; [lra|]. split; nra. }
  destruct S as (S0 & S1 & S2). set (M := fold_right (fun '(m, _) s => m + s) 0 ins) in *. set (N := fold_right (fun '(m, z) s => m * z + s) 0 ins) in *. clearbody M N.
  assert (D : 0 <= dt / V) by (apply Rmult_le_pos; [auto|apply Rlt_le, Rinv_0_lt_compat; auto]).
  assert (K : 0 <= r - dt / V * o). { replace (r - dt / V * o) with ((V * r - dt * o) / V) by (field; lra). apply Rmult_le_pos; [lra|apply Rlt_le, Rinv_0_lt_compat; auto]. }
  set (e := dt / V) in *. clearbody e. unfold r', q'.
  split; [nra|]. assert (0 <= e * (N - lo * M)) by (apply Rmult_le_pos; lra). assert (0 <= e * (hi * M - N)) by (apply Rmult_le_pos; lra).
  assert (0 <= (r - e * o) * (y - lo)) by (apply Rmult_le_pos; lra). assert (0 <= (r - e * o) * (hi - y)) by (apply Rmult_le_pos; lra). split; nra.
Qed.
Lemma whole f X c V dt i j k (a b : Z -> R) : 0 < V i j k -> 0 <= dt -> coherent (c i j k) ->
  donor f (geoI X i j k) (stI c i j k) (a 0%Z) (b 0%Z) -> donor f (geoI X (i + 1) j k) (stI c (i + 1) j k) (a 1%Z) (b 1%Z) ->
  donor f (geoJ X i j k) (stJ c i j k) (a 2%Z) (b 2%Z) -> donor f (geoJ X i (j + 1) k) (stJ c i (j + 1) k) (a 3%Z) (b 3%Z) ->
  donor f (geoK X i j k) (stK c i j k) (a 4%Z) (b 4%Z) -> donor f (geoK X i j (k + 1)) (stK c i j (k + 1)) (a 5%Z) (b 5%Z) ->
  dt * (b 0%Z + a 1%Z + b 2%Z + a 3%Z + b 4%Z + a 5%Z) <= V i j k * c_rho (c i j k) -> noNewExtrema dt V (blockFlux f X c) c i j k.
Proof.
  intros HV Ht HC D0 D1 D2 D3 D4 D5 Hc.
  destruct D0 as (A0 & B0 & M0 & S0), D1 as (A1 & B1 & M1 & S1), D2 as (A2 & B2 & M2 & S2), D3 as (A3 & B3 & M3 & S3), D4 as (A4 & B4 & M4 & S4), D5 as (A5 & B5 & M5 & S5).
  unfold stI, stJ, stK in S0, S1, S2, S3, S4, S5.
  replace (i + -1)%Z with (i - 1)%Z in S0 by lia. rewrite ?Z.add_0_r in S0, S1, S2, S3, S4, S5. replace (i + 1 + -1)%Z with i in S1 by lia.
  replace (j + -1)%Z with (j - 1)%Z in S2 by lia. replace (j + 1 + -1)%Z with j in S3 by lia. replace (k + -1)%Z with (k - 1)%Z in S4 by lia. replace (k + 1 + -1)%Z with k in S5 by lia.
  set (o := b 0%Z + a 1%Z + b 2%Z + a 3%Z + b 4%Z + a 5%Z) in *.
  assert (E0 : after dt V (blockFlux f X c) c i j k 0%Z = c_rho (c i j k) + dt / V i j k * (a 0%Z + (b 1%Z + (a 2%Z + (b 3%Z + (a 4%Z + (b 5%Z + 0))))) - o)).
  { unfold after, blockFlux. cbn [iF jF kF]. rewrite M0, M1, M2, M3, M4, M5. unfold c_rho, o. ring. }
  assert (El : forall l, (5 <= l)%Z -> after dt V (blockFlux f X c) c i j k l = c_rho (c i j k) * cq (c i j k) l + dt / V i j k *
    (a 0%Z * cq (c (i - 1)%Z j k) l + (b 1%Z * cq (c (i + 1)%Z j k) l + (a 2%Z * cq (c i (j - 1)%Z k) l + (b 3%Z * cq (c i (j + 1)%Z k) l + (a 4%Z * cq (c i j (k - 1)%Z) l + (b 5%Z * cq (c i j (k + 1)%Z) l + 0))))) - o * cq (c i j k) l)).
  { intros l Hl. unfold after, blockFlux. cbn [iF jF kF]. unfold stI, stJ, stK. rewrite S0, S1, S2, S3, S4, S5 by auto. destruct HC as (_ & _ & _ & _ & _ & HC). rewrite (HC l) by auto. unfold o. ring. }
  assert (G : forall l lo hi, (5 <= l)%Z -> (forall p, In p (around i j k) -> lo <= cq (cellAt c p) l <= hi) ->
    0 <= after dt V (blockFlux f X c) c i j k 0%Z /\ lo * after dt V (blockFlux f X c) c i j k 0%Z <= after dt V (blockFlux f X c) c i j k l <= hi * after dt V (blockFlux f X c) c i j k 0%Z).
  { intros l lo hi Hl H. rewrite E0, El by auto. unfold around in H.
    pose proof (cell_step (V i j k) dt (c_rho (c i j k)) o (cq (c i j k) l) lo hi
      [(a 0%Z, cq (c (i - 1)%Z j k) l); (b 1%Z, cq (c (i + 1)%Z j k) l); (a 2%Z, cq (c i (j - 1)%Z k) l); (b 3%Z, cq (c i (j + 1)%Z k) l); (a 4%Z, cq (c i j (k - 1)%Z) l); (b 5%Z, cq (c i j (k + 1)%Z) l)]) as Q.
    cbv zeta in Q. cbn [fold_right] in Q. apply Q; auto; [apply (H (i, j, k)); cbn; auto|].
    repeat (apply Forall_cons; [split; [assumption|first [apply (H ((i - 1)%Z, j, k)); cbn; tauto|apply (H ((i + 1)%Z, j, k)); cbn; tauto|apply (H (i, (j - 1)%Z, k)); cbn; tauto|apply (H (i, (j + 1)%Z, k)); cbn; tauto|apply (H (i, j, (k - 1)%Z)); cbn; tauto|apply (H (i, j, (k + 1)%Z)); cbn; tauto]]|]); apply Forall_nil. }
  split; [|intros l lo hi Hl H; apply (G l lo hi Hl H)].
  set (hi := fold_right (fun p m => Rmax (cq (cellAt c p) 5%Z) m) 0 (around i j k)). set (lo := fold_right (fun p m => Rmin (cq (cellAt c p) 5%Z) m) 0 (around i j k)).
  apply (G 5%Z lo hi); [lia|]. intros p Hp. unfold lo, hi. clear - Hp. induction (around i j k) as [|q L IH]; [destruct Hp|]. cbn [fold_right]. destruct Hp as [-> | Hp].
  - split; [apply Rmin_l|apply Rmax_l].
  - destruct (IH Hp) as [I1 I2]. split; [eapply Rle_trans; [apply Rmin_r|exact I1]|eapply Rle_trans; [exact I2|apply Rmax_r]].
Qed.

(** the schemes whose species ride on the mass flux *)
Lemma carried f g st m : f g st 0%Z = m -> (0 <= m -> forall l, (5 <= l)%Z -> f g st l = m * cq (st (-1)%Z) l) -> (m <= 0 -> forall l, (5 <= l)%Z -> f g st l = m * cq (st 0%Z) l) ->
  donor f g st (positive m) (positive (- m)).
Proof.
  intros E P N. unfold positive, donor. destruct (Rle_dec 0 m) as [H|H].
  - rewrite Rmax_left by lra. rewrite Rmax_right by lra. split; [lra|]. split; [lra|]. split; [lra|]. intros l Hl. rewrite P by auto. ring.
  - rewrite Rmax_right by lra. rewrite Rmax_left by lra. split; [lra|]. split; [lra|]. split; [lra|]. intros l Hl. rewrite N by (auto; lra). ring.
Qed.
Lemma ausm_carried g st : 0 < gS g -> (forall m, (-1 <= m <= 0)%Z -> gasState (st m)) ->
  donor ausmPlusUp g st (positive (ausmPlusUp g st 0%Z)) (positive (- ausmPlusUp g st 0%Z)).
Proof.
  intros HS _. apply carried; auto; unfold ausmPlusUp, ausmCore; cbv zeta; intros Hm l Hl; rewrite comp5 by auto; unfold comp in *; cbn [Z.eqb] in *;
  match type of Hm with context [if Rlt_dec 0 ?M then ?a * _ * _ else _] => set (mD := if Rlt_dec 0 M then a * M * c_rho (st (-1)%Z) else a * M * c_rho (st 0%Z)) in * end; clearbody mD.
  - destruct (Rlt_dec 0 mD); [ring|]. assert (mD = 0) by nra. subst. ring.
  - destruct (Rlt_dec 0 mD); [nra|ring].
Qed.
Lemma hllc_carried g st : 0 < gS g -> (forall m, (-1 <= m <= 0)%Z -> gasState (st m)) -> donor hllc g st (positive (hllc g st 0%Z)) (positive (- hllc g st 0%Z)).
Proof.
  intros HS HG. destruct (HG (-1)%Z ltac:(lia)) as (C1 & P1 & P2). destruct (HG 0%Z ltac:(lia)) as (C2 & P3 & P4). set (A := st (-1)%Z) in *. set (B := st 0%Z) in *.
  assert (side : forall c, coherent c -> forall l, (5 <= l)%Z -> sideFlux g (ofCell c) l = sideFlux g (ofCell c) 0%Z * cq c l).
  { intros c (_ & _ & _ & _ & _ & HC) l Hl. unfold sideFlux. cbv zeta. rewrite comp5 by auto. unfold comp. cbn [Z.eqb]. unfold ofCell. cbn [f_rY f_rho]. rewrite (HC l) by auto. ring. }
  assert (star : forall c W s, coherent c -> forall l, (5 <= l)%Z -> starFlux g W s (ofCell c) l = starFlux g W s (ofCell c) 0%Z * cq c l).
  { intros c W s (_ & _ & _ & _ & _ & HC) l Hl. unfold starFlux. cbv zeta. rewrite comp5 by auto. unfold comp. cbn [Z.eqb]. unfold sideFlux. cbv zeta. unfold comp. cbn [Z.eqb]. unfold ofCell. cbn [f_rY f_rho f_Y]. rewrite (HC l) by auto. ring. }
  assert (starM : forall c W s, W - s <> 0 -> starFlux g W s (ofCell c) 0%Z = c_rho c * gS g * s * ((W - fn g (ofCell c)) / (W - s))).
  { intros c W s N. unfold starFlux. cbv zeta. unfold comp. cbn [Z.eqb]. unfold sideFlux. cbv zeta. unfold comp. cbn [Z.eqb]. change (f_rho (ofCell c)) with (c_rho c). field. auto. }
  assert (sideM : forall c, sideFlux g (ofCell c) 0%Z = fn g (ofCell c) * c_rho c * gS g) by reflexivity.
  assert (q1 : forall x y, x < 0 -> y < 0 -> 0 < x / y) by (intros x y H1 H2; replace (x / y) with ((- x) / (- y)) by (field; apply Rlt_not_eq; auto); apply Rdiv_lt_0_compat; lra).
  assert (SL : hllcSL g (ofCell A) (ofCell B) = fn g (ofCell A) - c_c A) by reflexivity. assert (SR : hllcSR g (ofCell A) (ofCell B) = fn g (ofCell B) + c_c B) by reflexivity.
  unfold donor. fold A B.
  enough (Q : (hllc g st 0%Z >= 0 /\ forall l, (5 <= l)%Z -> hllc g st l = hllc g st 0%Z * cq A l) \/ (hllc g st 0%Z <= 0 /\ forall l, (5 <= l)%Z -> hllc g st l = hllc g st 0%Z * cq B l)).
  { set (m := hllc g st 0%Z) in *. clearbody m. unfold positive. destruct Q as [[Q1 Q2]|[Q1 Q2]].
    - rewrite Rmax_left by lra. rewrite Rmax_right by lra. split; [lra|]. split; [lra|]. split; [lra|]. intros l Hl. rewrite Q2 by auto. ring.
    - rewrite Rmax_right by lra. rewrite Rmax_left by lra. split; [lra|]. split; [lra|]. split; [lra|]. intros l Hl. rewrite Q2 by auto. ring. }
  unfold hllc, hllcFlux. cbv zeta. fold A B. set (sl := hllcSL g (ofCell A) (ofCell B)) in *. set (sr := hllcSR g (ofCell A) (ofCell B)) in *. set (ss := hllcSstar g (ofCell A) (ofCell B)) in *. clearbody sl sr ss.
  destruct (Rle_dec 0 sl) as [H1|H1]; [left; split; [rewrite sideM; apply Rle_ge; apply Rmult_le_pos; [apply Rmult_le_pos; lra|lra]|apply side; auto]|].
  destruct (Rle_dec sl 0) as [H2|H2]; [|lra].
  destruct (Rle_dec 0 ss) as [H3|H3].
  - left. split; [|apply star; auto]. rewrite starM by lra. pose proof (q1 (sl - fn g (ofCell A)) (sl - ss) ltac:(lra) ltac:(lra)). apply Rle_ge. apply Rmult_le_pos; [|lra]. apply Rmult_le_pos; [apply Rmult_le_pos; lra|lra].
  - destruct (Rle_dec 0 sr) as [H4|H4].
    + destruct (Rle_dec ss 0); [|lra]. right. split; [|apply star; auto]. rewrite starM by lra. assert (0 < (sr - fn g (ofCell B)) / (sr - ss)) by (apply Rdiv_lt_0_compat; lra).
      assert (0 < c_rho B * gS g) by (apply Rmult_lt_0_compat; auto). assert (c_rho B * gS g * ss <= 0) by nra. nra.
    + destruct (Rle_dec sr 0); [|lra]. right. split; [|apply side; auto]. rewrite sideM. assert (fn g (ofCell B) * c_rho B <= 0) by nra. nra.
Qed.

(** C155.  If in a step no cell gives away more mass than it has, its density stays non-negative and its mass
    fractions within the bounds of the cell and its six neighbours. *)
Theorem C155_carried_by_mass : forall f X c V dt i j k, In f [hllc; ausmPlusUp] -> (forall p, In p (around i j k) -> gasState (cellAt c p)) -> 0 < V i j k -> 0 <= dt ->
  dt * leavingMass (blockFlux f X c) i j k <= V i j k * c_rho (c i j k) -> noNewExtrema dt V (blockFlux f X c) c i j k.
Proof.
  intros f X c V dt i j k I HG HV Ht Hc.
  assert (D : forall g st, 0 < gS g -> (forall m, (-1 <= m <= 0)%Z -> gasState (st m)) -> donor f g st (positive (f g st 0%Z)) (positive (- f g st 0%Z))).
  { intros g st S G. destruct I as [<- | [<- | []]]; [apply hllc_carried|apply ausm_carried]; auto. }
  assert (T : forall s, 0 < faceSize s) by (intros s; pose proof tiny_pos; pose proof (C21_area_positive s); lra).
  assert (G : forall p, In p (around i j k) -> gasState (let '(i, j, k) := p in c i j k)) by auto.
  pose proof (G (i, j, k) ltac:(cbn; tauto)) as G0. pose proof (G ((i - 1)%Z, j, k) ltac:(cbn; tauto)) as G1. pose proof (G ((i + 1)%Z, j, k) ltac:(cbn; tauto)) as G2. pose proof (G (i, (j - 1)%Z, k) ltac:(cbn; tauto)) as G3.
  pose proof (G (i, (j + 1)%Z, k) ltac:(cbn; tauto)) as G4. pose proof (G (i, j, (k - 1)%Z) ltac:(cbn; tauto)) as G5. pose proof (G (i, j, (k + 1)%Z) ltac:(cbn; tauto)) as G6. cbv beta iota in G0, G1, G2, G3, G4, G5, G6.
  set (F := blockFlux f X c).
  apply (whole f X c V dt i j k
    (fun n => if (n =? 0)%Z then positive (iF F i j k 0%Z) else if (n =? 1)%Z then positive (iF F (i + 1)%Z j k 0%Z) else if (n =? 2)%Z then positive (jF F i j k 0%Z) else if (n =? 3)%Z then positive (jF F i (j + 1)%Z k 0%Z) else if (n =? 4)%Z then positive (kF F i j k 0%Z) else positive (kF F i j (k + 1)%Z 0%Z))
    (fun n => if (n =? 0)%Z then positive (- iF F i j k 0%Z) else if (n =? 1)%Z then positive (- iF F (i + 1)%Z j k 0%Z) else if (n =? 2)%Z then positive (- jF F i j k 0%Z) else if (n =? 3)%Z then positive (- jF F i (j + 1)%Z k 0%Z) else if (n =? 4)%Z then positive (- kF F i j k 0%Z) else positive (- kF F i j (k + 1)%Z 0%Z))); auto;
   [apply G0|cbn [Z.eqb Pos.eqb]; apply D; [apply T|intros m Hm; assert (m = -1 \/ m = 0)%Z as [-> | ->] by lia; unfold stI, stJ, stK; rewrite ?Z.add_0_r;
     replace (i + -1)%Z with (i - 1)%Z by lia; replace (i + 1 + -1)%Z with i by lia; replace (j + -1)%Z with (j - 1)%Z by lia; replace (j + 1 + -1)%Z with j by lia; replace (k + -1)%Z with (k - 1)%Z by lia; replace (k + 1 + -1)%Z with k by lia; auto] ..|].
  cbn [Z.eqb Pos.eqb]. unfold leavingMass in Hc. fold F in Hc. lra.
Qed.

(** Rusanov: the same if twice the volume is at least the step times the sum of the wave rates of the six faces *)
Definition passes (g : fgeo) (L Rc : cell) : R * R :=
  ((faceRate g L Rc + dot3 (vel L) (gs g)) / 2 * c_rho L, (faceRate g L Rc - dot3 (vel Rc) (gs g)) / 2 * c_rho Rc).
Lemma rusanov_donor g st : 0 < gS g -> faceVectors g -> (forall m, (-1 <= m <= 0)%Z -> gasState (st m)) ->
  donor rusanov g st (fst (passes g (st (-1)%Z) (st 0%Z))) (snd (passes g (st (-1)%Z) (st 0%Z))).
Proof.
  intros HS HF HG. destruct (HG (-1)%Z ltac:(lia)) as (C1 & P1 & P2). destruct (HG 0%Z ltac:(lia)) as (C2 & P3 & P4). unfold donor, passes. cbn [fst snd]. set (A := st (-1)%Z) in *. set (B := st 0%Z) in *.
  assert (N : forall c, dot3 (vel c) (gs g) = faceNormalVelocity g c * gS g). { intros c. rewrite HF. unfold faceNormalVelocity. vcomp. ring. }
  assert (L : rusanovLam g (ofCell A) (ofCell B) * gS g = faceRate g A B). { unfold rusanovLam, faceRate. rewrite !fn_ofCell. reflexivity. }
  rewrite !N. set (r := faceRate g A B) in *.
  assert (R1 : Rabs (faceNormalVelocity g A) * gS g <= r) by (unfold r, faceRate; apply Rmult_le_compat_r; [lra|]; eapply Rle_trans; [|apply Rmax_l]; lra).
  assert (R2 : Rabs (faceNormalVelocity g B) * gS g <= r) by (unfold r, faceRate; apply Rmult_le_compat_r; [lra|]; eapply Rle_trans; [|apply Rmax_r]; lra).
  assert (R3 : - r <= faceNormalVelocity g A * gS g). { pose proof (Rle_abs (- faceNormalVelocity g A)) as Q. rewrite Rabs_Ropp in Q. nra. }
  assert (R4 : faceNormalVelocity g B * gS g <= r). { pose proof (Rle_abs (faceNormalVelocity g B)) as Q. nra. }
  split; [apply Rmult_le_pos; lra|]. split; [apply Rmult_le_pos; lra|]. unfold rusanov, rusanovFlux. cbv zeta. fold A B. split; [unfold comp; cbn [Z.eqb]|intros l Hl; rewrite comp5 by auto]; rewrite L, !fn_ofCell.
  - unfold ofCell. cbn [f_rho]. field.
  - unfold ofCell. cbn [f_rY]. destruct C1 as (_ & _ & _ & _ & _ & C1), C2 as (_ & _ & _ & _ & _ & C2). rewrite (C1 l), (C2 l) by auto. field.
Qed.
Theorem C155_rusanov : forall X c V dt i j k, (forall p, In p (around i j k) -> gasState (cellAt c p)) -> 0 < V i j k -> 0 <= dt ->
  dt * faceRates X c i j k <= 2 * V i j k -> noNewExtrema dt V (blockFlux rusanov X c) c i j k.
Proof.
  intros X c V dt i j k HG HV Ht Hc.
  assert (T : forall s, 0 < faceSize s) by (intros s; pose proof tiny_pos; pose proof (C21_area_positive s); lra).
  assert (G : forall p, In p (around i j k) -> gasState (let '(i, j, k) := p in c i j k)) by auto.
  pose proof (G (i, j, k) ltac:(cbn; tauto)) as G0. pose proof (G ((i - 1)%Z, j, k) ltac:(cbn; tauto)) as G1. pose proof (G ((i + 1)%Z, j, k) ltac:(cbn; tauto)) as G2. pose proof (G (i, (j - 1)%Z, k) ltac:(cbn; tauto)) as G3.
  pose proof (G (i, (j + 1)%Z, k) ltac:(cbn; tauto)) as G4. pose proof (G (i, j, (k - 1)%Z) ltac:(cbn; tauto)) as G5. pose proof (G (i, j, (k + 1)%Z) ltac:(cbn; tauto)) as G6. cbv beta iota in G0, G1, G2, G3, G4, G5, G6.
  set (face := fun n : Z => if (n =? 0)%Z then passes (geoI X i j k) (c (i - 1)%Z j k) (c i j k) else if (n =? 1)%Z then passes (geoI X (i + 1) j k) (c i j k) (c (i + 1)%Z j k)
    else if (n =? 2)%Z then passes (geoJ X i j k) (c i (j - 1)%Z k) (c i j k) else if (n =? 3)%Z then passes (geoJ X i (j + 1) k) (c i j k) (c i (j + 1)%Z k)
    else if (n =? 4)%Z then passes (geoK X i j k) (c i j (k - 1)%Z) (c i j k) else passes (geoK X i j (k + 1)) (c i j k) (c i j (k + 1)%Z)).
  assert (D : forall g st L Rc, 0 < gS g -> faceVectors g -> gasState L -> gasState Rc -> st (-1)%Z = L -> st 0%Z = Rc -> donor rusanov g st (fst (passes g L Rc)) (snd (passes g L Rc))).
  { intros g st L Rc S HF H1 H2 <- <-. apply rusanov_donor; auto. intros m Hm. assert (m = -1 \/ m = 0)%Z as [-> | ->] by lia; auto. }
  apply (whole rusanov X c V dt i j k (fun n => fst (face n)) (fun n => snd (face n))); auto; try apply G0;
   try (unfold face; cbn [Z.eqb Pos.eqb]; apply D; auto; try apply T; try apply geo_faceVectors; unfold stI, stJ, stK; repeat match goal with |- c ?x ?y ?z = c ?x' ?y' ?z' => replace x with x' by lia; replace y with y' by lia; replace z with z' by lia; reflexivity end; fail).
  unfold face, passes. cbn [Z.eqb Pos.eqb fst snd]. unfold faceRates in Hc.
  assert (CL : dot3 (vel (c i j k)) (vadd (vsub (iArea X (i+1)%Z j k) (iArea X i j k)) (vadd (vsub (jArea X i (j+1)%Z k) (jArea X i j k)) (vsub (kArea X i j (k+1)%Z) (kArea X i j k)))) = 0).
  { rewrite C19_cell_faces_close. vcomp. ring. }
  assert (CL' : dot3 (vel (c i j k)) (gs (geoI X (i + 1) j k)) - dot3 (vel (c i j k)) (gs (geoI X i j k)) + (dot3 (vel (c i j k)) (gs (geoJ X i (j + 1) k)) - dot3 (vel (c i j k)) (gs (geoJ X i j k)))
     + (dot3 (vel (c i j k)) (gs (geoK X i j (k + 1))) - dot3 (vel (c i j k)) (gs (geoK X i j k))) = 0).
  { rewrite <- CL. unfold geoI, geoJ, geoK. cbn [gs]. generalize (iArea X (i+1) j k) (iArea X i j k) (jArea X i (j+1) k) (jArea X i j k) (kArea X i j (k+1)) (kArea X i j k). intros. vcomp. ring. }
  destruct G0 as (_ & PR & _). set (rho := c_rho (c i j k)) in *.
  repeat match goal with |- context [faceRate ?g ?A ?B] => let r := fresh "r" in set (r := faceRate g A B) in *; clearbody r end.
  repeat match goal with |- context [dot3 ?a ?b] => let r := fresh "u" in set (r := dot3 a b) in *; clearbody r end.
  match type of CL' with ?e = 0 => match goal with |- ?l <= _ => replace l with (rho / 2 * (dt * (r + r0 + r1 + r2 + r3 + r4)) + rho / 2 * dt * e) by field end end.
  rewrite CL'. assert (0 <= rho / 2 * (2 * V i j k - dt * (r + r0 + r1 + r2 + r3 + r4))) by (apply Rmult_le_pos; lra). lra.
Qed.

(** [after] is an explicit Euler step with the right-hand side of the code *)
Theorem C155_step : forall d ng ne V phi F c dt i j k l, interiorCell d ng i j k -> (0 <= l < ne)%Z -> V i j k <> 0 ->
  cQ (c i j k) l + dt * advectiveRHS NoShock d ng ne V phi F None i j k l = after dt V F c i j k l.
Proof. intros d ng ne V phi F c dt i j k l HI Hl HV. unfold advectiveRHS. cbv zeta. unfold applyFlux. rewrite inCC_in by auto. unfold after, dQzero. field. auto. Qed.

(** a stream along i on unit cubes: all of species 5 up to cell 0, none from cell 1 on *)
Definition cubes : nodes := fun i j k => (IZR i, IZR j, IZR k).
Definition front (i j k : Z) : cell :=
  let y := if (i <=? 0)%Z then 1 else 0 in
  mkCell (fun l => if (l =? 0)%Z then 1 else if (l =? 1)%Z then 1 else if (l =? 4)%Z then 3/2 else if (l =? 5)%Z then y else 0)
         (fun l => if (l =? 0)%Z then 1 else if (l =? 1)%Z then 1 else if (l =? 5)%Z then y else 0) (fun l => if (l =? 3)%Z then 1 else if (l =? 4)%Z then 1 else 0).
Lemma front_ok i j k : gasState (front i j k).
Proof.
  unfold gasState, coherent, front, c_rho, c_c, c_u, c_v, c_w, c_E, c_re, vel, c_u, c_v, c_w. cbn [cQ cq ch Z.eqb Pos.eqb].
  split; [|lra]. split; [lra|]. split; [lra|]. split; [lra|]. split; [lra|]. split; [vcomp; lra|].
  intros l Hl. replace (l =? 0)%Z with false by lia. replace (l =? 1)%Z with false by lia. replace (l =? 4)%Z with false by lia. destruct (l =? 5)%Z; ring.
Qed.
Lemma cubes_area i j k : iArea cubes i j k = (1, 0, 0) /\ jArea cubes i j k = (0, 1, 0) /\ kArea cubes i j k = (0, 0, 1).
Proof. unfold iArea, jArea, kArea, cubes. rewrite ?plus_IZR. repeat split; vext; field. Qed.
Lemma size_of s : dot3 s s = 1 -> faceSize s = 1.
Proof. intros H. destruct (C21_unit_normal s) as (E & _); [rewrite H, sqrt_1; unfold tiny; lra|]. rewrite E, H. apply sqrt_1. Qed.

Lemma front_rates : faceRates cubes front 0 0 0 = 2 + 2 + 1 + 1 + 1 + 1.
Proof.
  unfold faceRates, faceRate, geoI, geoJ, geoK. cbn [gS]. unfold faceNormalVelocity. cbn [gn].
  repeat match goal with |- context [iArea cubes ?a ?b ?d] => rewrite (proj1 (cubes_area a b d)) end.
  repeat match goal with |- context [jArea cubes ?a ?b ?d] => rewrite (proj1 (proj2 (cubes_area a b d))) end.
  repeat match goal with |- context [kArea cubes ?a ?b ?d] => rewrite (proj2 (proj2 (cubes_area a b d))) end.
  assert (N : forall s, dot3 s s = 1 -> faceNormal s = s). { intros s H. destruct (C21_unit_normal s) as (_ & _ & Q); [rewrite H, sqrt_1; unfold tiny; lra|]. rewrite size_of in Q by auto. rewrite <- Q at 2. destruct (faceNormal s) as [[a b] d]. vext; ring. }
  rewrite !N, !size_of by (vcomp; ring). unfold vel, c_u, c_v, c_w, c_c, front. cbn [cq ch Z.eqb Pos.eqb].
  assert (D : forall a b d, dot3 (1, 0, 0) (a, b, d) = a) by (intros; vcomp; ring). rewrite !D.
  assert (R0' : Rabs 0 = 0) by apply Rabs_R0. assert (R1' : Rabs 1 = 1) by apply Rabs_R1. rewrite R0', R1'. rewrite !Rmax_left by lra. ring.
Qed.
(** a step of one quarter of a unit: the hypotheses of both theorems hold at the front *)
Example C155_nonvacuous : (forall p, In p (around 0 0 0) -> gasState (cellAt front p)) /\ 1/4 * faceRates cubes front 0 0 0 <= 2 * 1 /\
  noNewExtrema (1/4) (fun _ _ _ => 1) (blockFlux rusanov cubes front) front 0 0 0.
Proof.
  assert (G : forall p, In p (around 0 0 0) -> gasState (cellAt front p)) by (intros [[a b] d] _; apply front_ok).
  assert (H : 1/4 * faceRates cubes front 0 0 0 <= 2 * 1) by (rewrite front_rates; lra).
  split; auto. split; auto. apply C155_rusanov; auto; lra.
Qed.
(** the central schemes make new extrema at this front however short the step *)
Theorem C155_central_overshoot : forall f dt, In f [KEEP; KEEPpe; KEPaEC; centralDifference; fourthOrderKEEP] -> 0 < dt -> ~ noNewExtrema dt (fun _ _ _ => 1) (blockFlux f cubes front) front 0 0 0.
Proof.
  intros f dt I Hd (_ & H). specialize (H 5%Z 0 1 ltac:(lia)).
  assert (Y : forall p, In p (around 0 0 0) -> 0 <= cq (cellAt front p) 5 <= 1). { intros [[a b] d] _. unfold cellAt, front. cbn [cq Z.eqb Pos.eqb]. destruct (a <=? 0)%Z; lra. }
  destruct (H Y) as [_ H2]. revert H2. unfold after, blockFlux. cbn [iF jF kF]. unfold geoI, geoJ, geoK.
  repeat match goal with |- context [iArea cubes ?a ?b ?d] => rewrite (proj1 (cubes_area a b d)) end.
  repeat match goal with |- context [jArea cubes ?a ?b ?d] => rewrite (proj1 (proj2 (cubes_area a b d))) end.
  repeat match goal with |- context [kArea cubes ?a ?b ?d] => rewrite (proj2 (proj2 (cubes_area a b d))) end.
  unfold stI, stJ, stK. clear H Y.
  repeat (destruct I as [<- | I]; [unfold KEEP, KEEPpe, KEPaEC, centralDifference, fourthOrderKEEP, keepLike; cbv beta zeta; unfold comp, keepSum; change (zrange 1 3) with [1; 2]%Z; cbn [fold_left]; change (zrange 0 1) with [0]%Z; change (zrange 0 2) with [0; 1]%Z; cbn [fold_left];
    unfold aq, c_rho, c_u, c_v, c_w, c_p, c_E, c_re, front, vx, vy, vz; cbn [gs fst snd Z.eqb Pos.eqb Z.add Z.sub Z.opp Pos.add Pos.succ Z.pos_sub Pos.pred_double cQ cq ch Z.leb Z.compare Pos.compare Pos.compare_cont];
    lra|]). destruct I.
Qed.
Print Assumptions C155_carried_by_mass. Print Assumptions C155_rusanov. Print Assumptions C155_central_overshoot.
