(** Closed forms of the diffusive flux kernels. *)
From Coq Require Import Reals ZArith List Bool Lia Lra.
From Verif Require Import M_Topology M_Halo M_Grid M_Metrics S_Metrics S_Sum M_Flux M_FluxKernels S_FluxKernels M_Thermo S_Thermo L_Grid1 L_Sum L_Thermo L_Vec M_Diff S_Diff.
Import ListNotations.
Open Scope R_scope.

Lemma fold_pair (f g : Z -> R) l a b :
  fold_left (fun '(x, y) n => (x - f n, y + g n)) l (a, b) = (a - fold_right Rplus 0 (map f l), b + fold_right Rplus 0 (map g l)).
Proof.
  revert a b. induction l as [|n l IH]; intros a b; cbn [fold_left fold_right map]; [f_equal; ring|].
  rewrite IH. f_equal; ring.
Qed.
Lemma fold_pair_sum (f g : Z -> R) lo hi a b :
  fold_left (fun '(x, y) n => (x - f n, y + g n)) (zrange lo hi) (a, b) = (a - sumZ lo hi f, b + sumZ lo hi g).
Proof. apply fold_pair. Qed.
Lemma avg_mean h (L Rc : dcell) : avg (h Rc) (h L) = mean h L Rc.
Proof. unfold avg, mean. lra. Qed.
Lemma sum_split ns f : (1 <= ns)%Z -> sumZ 0 ns f = sumZ 0 (ns - 1) f + f (ns - 1)%Z.
Proof. intros. replace ns with ((ns - 1) + 1)%Z at 1 by lia. now rewrite sumZ_snoc by lia. Qed.
Lemma lastNeg_last ns f : lastNeg ns f (ns - 1) = - sumZ 0 (ns - 1) f.
Proof. unfold lastNeg. now rewrite Z.eqb_refl. Qed.
Lemma lastNeg_other ns f n : (n < ns - 1)%Z -> lastNeg ns f n = f n.
Proof. intros. unfold lastNeg. destruct (Z.eqb_spec n (ns - 1)); [lia|auto]. Qed.
Lemma withLast_last ns f : withLast ns f (ns - 1) = 1 - sumZ 0 (ns - 1) f.
Proof. unfold withLast. now rewrite Z.eqb_refl. Qed.
Lemma withLast_other ns f n : (n < ns - 1)%Z -> withLast ns f n = f n.
Proof. intros. unfold withLast. destruct (Z.eqb_spec n (ns - 1)); [lia|auto]. Qed.
Lemma lastNeg_sum ns f : (1 <= ns)%Z -> sumZ 0 ns (lastNeg ns f) = 0.
Proof.
  intros. rewrite sum_split, lastNeg_last by auto. rewrite (sumZ_ext _ _ (lastNeg ns f) f); [ring|].
  intros. apply lastNeg_other. lia.
Qed.

Section Core.
Variables (gr : Z -> vec) (lc : R -> R) (ne : Z) (f : dface) (L Rc : dcell).
Hypothesis Hne : (5 <= ne)%Z.
Let ns := (ne - 4)%Z.

Lemma correction_split D g : correction ns D (lastNeg ns g) = sumZ 0 (ne - 5) (fun n => D n * g n) + D (ne - 5)%Z * (0 - sumZ 0 (ne - 5) g).
Proof.
  unfold correction. rewrite sum_split by (unfold ns; lia). rewrite lastNeg_last. unfold ns. replace (ne - 4 - 1)%Z with (ne - 5)%Z by lia.
  f_equal; [|ring]. apply sumZ_ext. intros. now rewrite lastNeg_other by lia.
Qed.
Lemma core_mass : diffCore gr lc ne f L Rc 0%Z = 0.
Proof. unfold diffCore. cbv zeta. rewrite !fold_pair_sum. reflexivity. Qed.
Lemma core_momentum l : l = 1%Z \/ l = 2%Z \/ l = 3%Z ->
  diffCore gr lc ne f L Rc l = - (match l with 1%Z => vx | 2%Z => vy | _ => vz end) (traction (mean (fun c => dt c 0%Z) L Rc) gr (fs f)).
Proof.
  intros [->|[->| ->]]; unfold diffCore; cbv zeta; rewrite !fold_pair_sum; unfold comp; cbn [Z.eqb Pos.eqb];
  unfold traction, dot3; cbv zeta; rewrite ?vx_mk, ?vy_mk, ?vz_mk; unfold avg, mean; field.
Qed.
Lemma core_species n : (0 <= n < ne - 5)%Z -> diffCore gr lc ne f L Rc (5 + n)%Z = speciesFlux ns gr f L Rc n.
Proof.
  intros Hn. unfold diffCore; cbv zeta. rewrite !fold_pair_sum. unfold comp.
  destruct (Z.eqb_spec (5 + n) 0); [lia|]. destruct (Z.eqb_spec (5 + n) 1); [lia|]. destruct (Z.eqb_spec (5 + n) 2); [lia|].
  destruct (Z.eqb_spec (5 + n) 3); [lia|]. destruct (Z.eqb_spec (5 + n) 4); [lia|]. replace (5 + n - 5)%Z with n by lia.
  unfold speciesFlux, fick, faceGrad, faceY. rewrite correction_split. rewrite lastNeg_other, withLast_other by (unfold ns; lia).
  unfold faceD. replace (2 + (ne - 5))%Z with (2 + ne - 5)%Z by lia.
  assert (E : forall a b, sumZ 0 (ne - 5) (fun n0 => avg (dt Rc (2 + n0)%Z) (dt L (2 + n0)%Z) * (vx (gr (5 + n0)%Z) * vx (fs f) + vy (gr (5 + n0)%Z) * vy (fs f) + vz (gr (5 + n0)%Z) * vz (fs f))) * a + b
            = sumZ 0 (ne - 5) (fun n0 => mean (fun c => dt c (2 + n0)%Z) L Rc * dot3 (gr (5 + n0)%Z) (fs f)) * a + b).
  { intros. do 2 f_equal. apply sumZ_ext. intros. now rewrite (avg_mean (fun c => dt c (2 + i)%Z)). }
  rewrite (avg_mean (fun c => dt c (2 + n)%Z)), (avg_mean (fun c => dq c (5 + n)%Z)), (avg_mean (fun c => dt c (2 + ne - 5)%Z)), (avg_mean dRho).
  specialize (E 1 0). rewrite !Rmult_1_r, !Rplus_0_r in E. rewrite Rplus_0_l, E. reflexivity.
Qed.
(** the last species' flux as the energy loop computes it *)
Lemma core_energy : diffCore gr lc ne f L Rc 4%Z =
  dot3 (faceVelocity L Rc) (traction (mean (fun c => dt c 0%Z) L Rc) gr (fs f)) + fourier (mean (fun c => dt c 1%Z) L Rc) gr (fs f)
  + sumZ 0 (ne - 5) (fun n => speciesFlux ns gr f L Rc n * faceH L Rc n)
  + (speciesFlux ns gr f L Rc (ns - 1) + (lc (faceY ns L Rc (ns - 1)%Z) - faceY ns L Rc (ns - 1)%Z) * mean dRho L Rc * correction ns (faceD L Rc) (faceGrad ns gr (fs f))) * faceH L Rc (ns - 1).
Proof.
  pose proof core_species as CS.
  unfold diffCore in *. cbv zeta in *.
  rewrite !fold_pair_sum. rewrite !fold_pair_sum in CS. unfold comp at 1. cbn [Z.eqb Pos.eqb].
  assert (ES : sumZ 0 (ne - 5) (fun n : Z =>
      (- avg (dRho Rc) (dRho L) * avg (dt Rc (2 + n)%Z) (dt L (2 + n)%Z) * (vx (gr (5 + n)%Z) * vx (fs f) + vy (gr (5 + n)%Z) * vy (fs f) + vz (gr (5 + n)%Z) * vz (fs f)) +
       avg (dq Rc (5 + n)%Z) (dq L (5 + n)%Z) * avg (dRho Rc) (dRho L) *
       (0 + sumZ 0 (ne - 5) (fun n0 : Z => avg (dt Rc (2 + n0)%Z) (dt L (2 + n0)%Z) * (vx (gr (5 + n0)%Z) * vx (fs f) + vy (gr (5 + n0)%Z) * vy (fs f) + vz (gr (5 + n0)%Z) * vz (fs f))) +
        avg (dt Rc (2 + ne - 5)%Z) (dt L (2 + ne - 5)%Z) * (0 - sumZ 0 (ne - 5) (fun n0 : Z => vx (gr (5 + n0)%Z) * vx (fs f) + vy (gr (5 + n0)%Z) * vy (fs f) + vz (gr (5 + n0)%Z) * vz (fs f))))) * avg (dh Rc (5 + n)%Z) (dh L (5 + n)%Z))
     = sumZ 0 (ne - 5) (fun n => speciesFlux ns gr f L Rc n * faceH L Rc n)).
  { apply sumZ_ext. intros n Hn. rewrite <- CS by auto. unfold comp.
    destruct (Z.eqb_spec (5 + n) 0); [lia|]. destruct (Z.eqb_spec (5 + n) 1); [lia|]. destruct (Z.eqb_spec (5 + n) 2); [lia|].
    destruct (Z.eqb_spec (5 + n) 3); [lia|]. destruct (Z.eqb_spec (5 + n) 4); [lia|]. replace (5 + n - 5)%Z with n by lia.
    unfold faceH. rewrite (avg_mean (fun c => dh c (5 + n)%Z)). reflexivity. }
  rewrite ES. clear ES CS. set (S := sumZ 0 (ne - 5) (fun n => speciesFlux ns gr f L Rc n * faceH L Rc n)).
  assert (Ens : (ns - 1 = ne - 5)%Z) by (unfold ns; lia).
  assert (EF : speciesFlux ns gr f L Rc (ns - 1) = - mean dRho L Rc * faceD L Rc (ns - 1)%Z * (0 - sumZ 0 (ne - 5) (fun n => dot3 (gr (5 + n)%Z) (fs f))) +
     faceY ns L Rc (ns - 1)%Z * mean dRho L Rc * correction ns (faceD L Rc) (faceGrad ns gr (fs f))).
  { unfold speciesFlux, fick. f_equal. unfold faceGrad. rewrite lastNeg_last. rewrite Ens. ring. }
  assert (EY : faceY ns L Rc (ns - 1)%Z = 1 - sumZ 0 (ne - 5) (fun n => avg (dq Rc (5 + n)%Z) (dq L (5 + n)%Z))).
  { unfold faceY. rewrite withLast_last, Ens. f_equal. apply sumZ_ext. intros. now rewrite (avg_mean (fun c => dq c (5 + i)%Z)). }
  assert (EC : correction ns (faceD L Rc) (faceGrad ns gr (fs f)) =
     sumZ 0 (ne - 5) (fun n0 : Z => avg (dt Rc (2 + n0)%Z) (dt L (2 + n0)%Z) * (vx (gr (5 + n0)%Z) * vx (fs f) + vy (gr (5 + n0)%Z) * vy (fs f) + vz (gr (5 + n0)%Z) * vz (fs f))) +
        avg (dt Rc (2 + ne - 5)%Z) (dt L (2 + ne - 5)%Z) * (0 - sumZ 0 (ne - 5) (fun n0 : Z => vx (gr (5 + n0)%Z) * vx (fs f) + vy (gr (5 + n0)%Z) * vy (fs f) + vz (gr (5 + n0)%Z) * vz (fs f)))).
  { unfold faceGrad. rewrite correction_split. f_equal.
    - apply sumZ_ext. intros. unfold faceD. now rewrite (avg_mean (fun c => dt c (2 + i)%Z)).
    - unfold faceD. replace (2 + (ne - 5))%Z with (2 + ne - 5)%Z by lia. now rewrite (avg_mean (fun c => dt c (2 + ne - 5)%Z)). }
  rewrite EF, EC, <- EY.
  assert (ED : faceD L Rc (ns - 1)%Z = avg (dt Rc (2 + ne - 5)%Z) (dt L (2 + ne - 5)%Z)).
  { unfold faceD. rewrite Ens. replace (2 + (ne - 5))%Z with (2 + ne - 5)%Z by lia. now rewrite (avg_mean (fun c => dt c (2 + ne - 5)%Z)). }
  assert (EH : faceH L Rc (ns - 1)%Z = avg (dh Rc ne) (dh L ne)).
  { unfold faceH. rewrite Ens. replace (5 + (ne - 5))%Z with ne by lia. now rewrite (avg_mean (fun c => dh c ne)). }
  rewrite ED, EH. change (fun n => dot3 (gr (5 + n)%Z) (fs f)) with (fun n0 : Z => vx (gr (5 + n0)%Z) * vx (fs f) + vy (gr (5 + n0)%Z) * vy (fs f) + vz (gr (5 + n0)%Z) * vz (fs f)).
  set (gy := sumZ 0 (ne - 5) (fun n0 : Z => vx (gr (5 + n0)%Z) * vx (fs f) + vy (gr (5 + n0)%Z) * vy (fs f) + vz (gr (5 + n0)%Z) * vz (fs f))).
  rewrite Rplus_0_l.
  set (vc := sumZ 0 (ne - 5) _). clearbody vc gy S. set (Yl := faceY ns L Rc (ns - 1)%Z). clearbody Yl.
  unfold faceVelocity, traction, dot3, fourier, dot3. cbv zeta. rewrite ?vx_mk, ?vy_mk, ?vz_mk. unfold avg, mean. field.
Qed.
End Core.
