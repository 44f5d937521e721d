(** Property C153: the species library. *)
From Coq Require Import Reals QArith Qreals ZArith String List Bool Lia Lra.
From Verif Require Import M_Topology M_Halo M_Grid M_Metrics S_Metrics S_Sum M_Flux M_FluxKernels S_FluxKernels M_Config M_Species M_Thermo S_Thermo L_Grid1 L_Sum L_Vec L_Thermo P_Thermo P_Tpg S_Species P_Species M_SpLib S_SpLib.
Import ListNotations.
Local Open Scope R_scope.

(** ** A polynomial is at least the least of its Bernstein coefficients *)
Section Bernstein.
Variables c0 c1 c2 c3 c4 a w : R.
Definition d0 := c0 + a * (c1 + a * (c2 + a * (c3 + a * c4))).
Definition d1 := (c1 + a * (2 * c2 + a * (3 * c3 + a * (4 * c4)))) * w.
Definition d2 := (c2 + a * (3 * c3 + a * (6 * c4))) * (w * w).
Definition d3 := (c3 + a * (4 * c4)) * (w * (w * w)).
Definition d4 := c4 * (w * (w * (w * w))).
Lemma bern m s : 0 <= s <= 1 -> m <= d0 -> m <= d0 + d1 * / 4 -> m <= d0 + d1 * / 2 + d2 * / 6 -> m <= d0 + 3 * (d1 * / 4) + d2 * / 2 + d3 * / 4 -> m <= d0 + d1 + d2 + d3 + d4 ->
  let T := a + w * s in m <= c0 + c1 * T + c2 * T ^ 2 + c3 * T ^ 3 + c4 * T ^ 4.
Proof.
  intros S B0 B1 B2 B3 B4 T.
  set (u := 1 - s). assert (U : 0 <= u) by (unfold u; lra). assert (V : 0 <= s) by lra.
  assert (P : forall i j, 0 <= s ^ i * u ^ j) by (intros i j; apply Rmult_le_pos; apply pow_le; assumption).
  assert (E : c0 + c1 * T + c2 * T ^ 2 + c3 * T ^ 3 + c4 * T ^ 4 - m =
     (d0 - m) * (s ^ 0 * u ^ 4) + (d0 + d1 * / 4 - m) * (4 * (s ^ 1 * u ^ 3)) + (d0 + d1 * / 2 + d2 * / 6 - m) * (6 * (s ^ 2 * u ^ 2)) +
     (d0 + 3 * (d1 * / 4) + d2 * / 2 + d3 * / 4 - m) * (4 * (s ^ 3 * u ^ 1)) + (d0 + d1 + d2 + d3 + d4 - m) * (s ^ 4 * u ^ 0)).
  { unfold T, u, d0, d1, d2, d3, d4. field. }
  pose proof (P 0%nat 4%nat) as P0. pose proof (P 1%nat 3%nat) as P1. pose proof (P 2%nat 2%nat) as P2. pose proof (P 3%nat 1%nat) as P3. pose proof (P 4%nat 0%nat) as P4.
  assert (M : forall x y, 0 <= x -> 0 <= y -> 0 <= x * y) by (intros; now apply Rmult_le_pos).
  assert (0 <= c0 + c1 * T + c2 * T ^ 2 + c3 * T ^ 3 + c4 * T ^ 4 - m); [|lra].
  rewrite E. repeat apply Rplus_le_le_0_compat; apply M; lra.
Qed.
End Bernstein.
(** the same coefficients as rationals *)
Local Open Scope Q_scope.
Definition coefs (c0 c1 c2 c3 c4 a w : Q) : list Q :=
  let d0 := Qred (c0 + a * (c1 + a * (c2 + a * (c3 + a * c4)))) in let d1 := Qred ((c1 + a * (2 * c2 + a * (3 * c3 + a * (4 * c4)))) * w) in
  let d2 := Qred ((c2 + a * (3 * c3 + a * (6 * c4))) * (w * w)) in let d3 := Qred ((c3 + a * (4 * c4)) * (w * (w * w))) in let d4 := Qred (c4 * (w * (w * (w * w)))) in
  [d0; d0 + d1 * (1#4); d0 + d1 * (1#2) + d2 * (1#6); d0 + 3 * (d1 * (1#4)) + d2 * (1#2) + d3 * (1#4); d0 + d1 + d2 + d3 + d4].
Definition atLeast (m : Q) (c0 c1 c2 c3 c4 a b : Q) : bool := forallb (Qle_bool m) (coefs c0 c1 c2 c3 c4 a (b - a)).
Local Open Scope R_scope.
Lemma Q2R_red q : Q2R (Qred q) = Q2R q.
Proof. apply Qeq_eqR. apply Qred_correct. Qed.
Lemma Q2R_int z : Q2R (z # 1) = IZR z.
Proof. unfold Q2R. cbn [Qnum Qden]. lra. Qed.
Lemma Q2R_inv p : Q2R (1 # p) = / IZR (Zpos p).
Proof. unfold Q2R. cbn [Qnum Qden]. lra. Qed.
Lemma atLeast_spec m c0 c1 c2 c3 c4 a b T : atLeast m c0 c1 c2 c3 c4 a b = true -> Q2R a <= T <= Q2R b -> Q2R a < Q2R b ->
  Q2R m <= Q2R c0 + Q2R c1 * T + Q2R c2 * T ^ 2 + Q2R c3 * T ^ 3 + Q2R c4 * T ^ 4.
Proof.
  intros H HT L. unfold atLeast, coefs in H. cbv zeta in H. cbn [forallb] in H. rewrite !andb_true_iff in H. destruct H as (H0 & H1 & H2 & H3 & H4 & _).
  apply Qle_bool_iff, Qle_Rle in H0, H1, H2, H3, H4.
  let go H := repeat (rewrite Q2R_red in H || rewrite Q2R_plus in H || rewrite Q2R_mult in H || rewrite Q2R_minus in H || rewrite Q2R_int in H || rewrite Q2R_inv in H) in go H0; go H1; go H2; go H3; go H4.
  set (w := Q2R b - Q2R a) in *. assert (W : 0 < w) by (unfold w; lra).
  replace T with (Q2R a + w * ((T - Q2R a) / w)) by (field; lra).
  apply (bern (Q2R c0) (Q2R c1) (Q2R c2) (Q2R c3) (Q2R c4) (Q2R a) w); [|assumption..].
  split; [apply Rmult_le_pos; [lra|left; apply Rinv_0_lt_compat; exact W]|].
  apply Rmult_le_reg_r with w; [exact W|]. unfold Rdiv. rewrite Rmult_assoc, Rinv_l by lra. unfold w. lra.
Qed.

(** ** One row of coefficients *)
Local Open Scope Q_scope.
Definition m0 : Q := 247 # 100.
Definition jmax : Q := 19 # 1000.
Definition enth (c0 c1 c2 c3 c4 c5 t : Q) : Q := c5 + t * (c0 + t * ((1#2) * c1 + t * ((1#3) * c2 + t * ((1#4) * c3 + t * ((1#5) * c4))))).
Definition rowOk (l : list Q) : bool :=
  match l with
  | [tb; h0; h1; h2; h3; h4; h5; _; l0; l1; l2; l3; l4; l5; _] =>
      (Qle_bool 1000 tb && Qle_bool tb 2000 && atLeast m0 l0 l1 l2 l3 l4 200 tb && atLeast m0 h0 h1 h2 h3 h4 tb 2500 && atLeast m0 h0 h1 h2 h3 h4 2500 5000 &&
       Qle_bool (- jmax) (enth h0 h1 h2 h3 h4 h5 tb - enth l0 l1 l2 l3 l4 l5 tb) && Qle_bool (enth h0 h1 h2 h3 h4 h5 tb - enth l0 l1 l2 l3 l4 l5 tb) jmax)%bool
  | _ => false
  end.
Local Open Scope R_scope.
Definition polyCp (a : nat -> R) (T : R) : R := a 0%nat + a 1%nat * T + a 2%nat * T ^ 2 + a 3%nat * T ^ 3 + a 4%nat * T ^ 4.
Definition polyH (a : nat -> R) (T : R) : R := a 5%nat + a 0%nat * T + a 1%nat / 2 * T ^ 2 + a 2%nat / 3 * T ^ 3 + a 3%nat / 4 * T ^ 4 + a 4%nat / 5 * T ^ 5.
Definition lowOf (r : list R) (k : nat) : R := nth (8 + k) r 0.
Definition highOf (r : list R) (k : nat) : R := nth (1 + k) r 0.
Lemma polyH_mean a T1 T2 : T1 < T2 -> exists x, T1 < x < T2 /\ polyH a T2 - polyH a T1 = polyCp a x * (T2 - T1).
Proof.
  intros L. destruct (MVT_cor2 (fun T => 1 * (a 5%nat + a 0%nat * T + a 1%nat / 2 * T ^ 2 + a 2%nat / 3 * T ^ 3 + a 3%nat / 4 * T ^ 4 + a 4%nat / 5 * T ^ 5))
    (fun T => 1 * (a 0%nat + a 1%nat * T + a 2%nat * T ^ 2 + a 3%nat * T ^ 3 + a 4%nat * T ^ 4)) T1 T2 L) as (x & E & X); [intros; apply poly_deriv|].
  exists x. split; [exact X|]. unfold polyH, polyCp. rewrite !Rmult_1_l in E. exact E.
Qed.
Lemma enth_spec c0 c1 c2 c3 c4 c5 t a : a 0%nat = Q2R c0 -> a 1%nat = Q2R c1 -> a 2%nat = Q2R c2 -> a 3%nat = Q2R c3 -> a 4%nat = Q2R c4 -> a 5%nat = Q2R c5 -> Q2R (enth c0 c1 c2 c3 c4 c5 t) = polyH a (Q2R t).
Proof.
  intros E0 E1 E2 E3 E4 E5. unfold polyH, enth. rewrite E0, E1, E2, E3, E4, E5.
  repeat (rewrite Q2R_plus || rewrite Q2R_mult || rewrite Q2R_inv). field.
Qed.
Lemma rowOk_spec l : rowOk l = true -> let r := map Q2R l in let tb := nth 0 r 0 in List.length l = 15%nat /\ 1000 <= tb <= 2000 /\
  (forall T, 200 <= T <= tb -> 247 / 100 <= polyCp (lowOf r) T) /\ (forall T, tb <= T <= 5000 -> 247 / 100 <= polyCp (highOf r) T) /\
  - (19 / 1000) <= polyH (highOf r) tb - polyH (lowOf r) tb <= 19 / 1000.
Proof.
  intros H. do 15 (destruct l as [|? l]; [discriminate|]). destruct l; [|discriminate]. unfold rowOk in H. rewrite !andb_true_iff in H. destruct H as ((((((A & B) & C) & D) & E) & F) & G).
  cbv zeta. cbn [map nth List.length]. set (tb := Q2R q) in *. apply Qle_bool_iff, Qle_Rle in A, B, F, G.
  assert (M : Q2R m0 = 247 / 100) by (unfold m0, Q2R; cbn [Qnum Qden]; lra). assert (J : Q2R jmax = 19 / 1000) by (unfold jmax, Q2R; cbn [Qnum Qden]; lra).
  assert (N2 : Q2R 200 = 200) by (apply Q2R_int). assert (N3 : Q2R 2500 = 2500) by (apply Q2R_int). assert (N4 : Q2R 5000 = 5000) by (apply Q2R_int).
  rewrite Q2R_int in A. rewrite Q2R_int in B. fold tb in A, B. split; [reflexivity|]. split; [lra|]. split; [|split].
  - intros T HT. rewrite <- M. unfold polyCp, lowOf. cbn [plus nth]. apply (atLeast_spec m0 _ _ _ _ _ 200 q); [exact C|fold tb; lra|fold tb; lra].
  - intros T HT. rewrite <- M. unfold polyCp, highOf. cbn [plus nth]. destruct (Rle_dec T 2500).
    + apply (atLeast_spec m0 _ _ _ _ _ q 2500); [exact D|fold tb; lra|fold tb; lra].
    + apply (atLeast_spec m0 _ _ _ _ _ 2500 5000); [exact E|lra|lra].
  - rewrite Q2R_minus, Q2R_opp, J in F. rewrite Q2R_minus, J in G.
    rewrite (enth_spec q0 q1 q2 q3 q4 q5 q (highOf (map Q2R [q; q0; q1; q2; q3; q4; q5; q6; q7; q8; q9; q10; q11; q12; q13]))) in F, G by reflexivity.
    rewrite (enth_spec q7 q8 q9 q10 q11 q12 q (lowOf (map Q2R [q; q0; q1; q2; q3; q4; q5; q6; q7; q8; q9; q10; q11; q12; q13]))) in F, G by reflexivity.
    split; assumption.
Qed.
(** enthalpy over the gas constant, as the code evaluates it from a row *)
Definition rowH (r : list R) (T : R) : R := polyH (if Rle_dec T (nth 0 r 0) then lowOf r else highOf r) T.
Definition rowCp (r : list R) (T : R) : R := polyCp (if Rle_dec T (nth 0 r 0) then lowOf r else highOf r) T.
Lemma rowCp_least l T : rowOk l = true -> 200 <= T <= 5000 -> 247 / 100 <= rowCp (map Q2R l) T.
Proof. intros H HT. destruct (rowOk_spec l H) as (_ & B & L & U & _). unfold rowCp. destruct Rle_dec; [apply L|apply U]; lra. Qed.
Lemma rowH_rise l T1 T2 : rowOk l = true -> 200 <= T1 -> T1 <= T2 -> T2 <= 5000 ->
  rowH (map Q2R l) T2 - rowH (map Q2R l) T1 >= 247 / 100 * (T2 - T1) - 19 / 1000 /\
  ((T1 <= nth 0 (map Q2R l) 0 <-> T2 <= nth 0 (map Q2R l) 0) -> rowH (map Q2R l) T2 - rowH (map Q2R l) T1 >= 247 / 100 * (T2 - T1)).
Proof.
  intros H H1 H2 H3. destruct (rowOk_spec l H) as (_ & B & L & U & J). cbv zeta in *. set (r := map Q2R l) in *. set (tb := nth 0 r 0) in *.
  assert (Lo : forall a b, 200 <= a -> a <= b -> b <= tb -> polyH (lowOf r) b - polyH (lowOf r) a >= 247 / 100 * (b - a)).
  { intros a b X Y Z0. destruct (Req_dec a b) as [->|N]; [lra|]. destruct (polyH_mean (lowOf r) a b ltac:(lra)) as (x & X1 & E). rewrite E. specialize (L x ltac:(lra)). nra. }
  assert (Hi : forall a b, tb <= a -> a <= b -> b <= 5000 -> polyH (highOf r) b - polyH (highOf r) a >= 247 / 100 * (b - a)).
  { intros a b X Y Z0. destruct (Req_dec a b) as [->|N]; [lra|]. destruct (polyH_mean (highOf r) a b ltac:(lra)) as (x & X1 & E). rewrite E. specialize (U x ltac:(lra)). nra. }
  unfold rowH. fold tb. destruct (Rle_dec T1 tb), (Rle_dec T2 tb).
  - specialize (Lo T1 T2 H1 H2 r1). split; intros; lra.
  - pose proof (Lo T1 tb H1 r0 ltac:(lra)). pose proof (Hi tb T2 ltac:(lra) ltac:(lra) H3). split; [lra|intros X; exfalso; apply n, X, r0].
  - exfalso. lra.
  - pose proof (Hi T1 T2 ltac:(lra) H2 H3). split; intros; lra.
Qed.
(** ** The library *)
Definition nasaOf (d : list (string * lval)) : bool := match lookup "NASA7" d with Some (LLst l) => rowOk l | Some _ => false | None => true end.
Lemma library_rows : forallb (fun e => nasaOf (snd e)) library = true.
Proof. vm_compute. reflexivity. Qed.

Definition mwOf (d : list (string * lval)) : bool := match lookup "MW" d with Some (LNum q) => negb (Qle_bool q 0) | _ => false end.
Lemma library_mw : forallb (fun e => mwOf (snd e)) library = true.
Proof. vm_compute. reflexivity. Qed.
Lemma library_names : forallb (fun e => forallb (fun c => negb (String.eqb (fst e) (fst c))) libConstants) library = true.
Proof. vm_compute. reflexivity. Qed.
Lemma lookup_In {V} k (l : list (string * V)) v : lookup k l = Some v -> In (k, v) l.
Proof. induction l as [|(k', v') l IH]; cbn [lookup]; [discriminate|]. destruct (String.eqb_spec k k') as [->|]; [intros [= ->]; now left|intros H; right; auto]. Qed.
Lemma lookup_map {V W} (f : V -> W) k l : lookup k (map (fun e => (fst e, f (snd e))) l) = option_map f (lookup k l).
Proof. induction l as [|(k', v') l IH]; cbn [lookup map fst snd]; [reflexivity|]. destruct (String.eqb k k'); [reflexivity|exact IH]. Qed.
Lemma lookup_app {V} k (l m : list (string * V)) : lookup k (l ++ m) = match lookup k l with Some v => Some v | None => lookup k m end.
Proof. induction l as [|(k', v') l IH]; cbn [lookup app]; [reflexivity|]. destruct (String.eqb k k'); [reflexivity|exact IH]. Qed.
Lemma lookup_no {V} k (l : list (string * V)) : (forall e, In e l -> fst e <> k) -> lookup k l = None.
Proof. induction l as [|(k', v') l IH]; intros H; cbn [lookup]; [reflexivity|]. destruct (String.eqb_spec k k') as [->|]; [exfalso; apply (H (k', v')); [now left|reflexivity]|]. apply IH. intros e I. apply H. now right. Qed.
(** what completing from the library gives for a name and a key *)
Lemma from_library n key v : entry n key = Some v -> pickValue refsp key (n, SpNone) = SOk (toVal v).
Proof.
  unfold entry. destruct (lookup n library) as [d|] eqn:E; [|discriminate]. intros K. unfold pickValue. cbn [fst snd]. unfold fromLibrary, refsp. rewrite lookup_app.
  rewrite lookup_no.
  2:{ intros e I Q. apply in_map_iff in I. destruct I as (c & <- & I). cbn [fst] in Q. pose proof library_names as L. rewrite forallb_forall in L. specialize (L _ (lookup_In _ _ _ E)). rewrite forallb_forall in L. specialize (L _ I). cbn [fst] in L. subst n. rewrite String.eqb_refl in L. discriminate. }
  rewrite (lookup_map (fun d => SpDict (map (fun kv => (fst kv, toVal (snd kv))) d))), E. cbn [option_map]. rewrite lookup_map, K. reflexivity.
Qed.
Lemma from_names names : NoDup names -> fromNames names = map (fun n => (n, SpNone)) names.
Proof. intros H. unfold fromNames. rewrite dedup_id; [reflexivity|exact H|intros x _ []]. Qed.
Lemma complete_num parse key names qs : names <> [] -> NoDup names -> Forall2 (fun n q => entry n key = Some (LNum q)) names qs ->
  completeSpecies parse key (fromNames names) refsp = SOk (D1 (map (fun q => Num (Q2R q)) qs)).
Proof.
  intros Ne Nd F. unfold completeSpecies. rewrite from_names by exact Nd.
  rewrite (smapM_ok _ _ (map (fun q => VN (Q2R q)) qs)). 2:{ clear Ne Nd. induction F as [|n q l l' H F IH]; [constructor|]. cbn [map]. constructor; [exact (from_library _ _ _ H)|exact IH]. }
  cbn [sbind]. destruct F as [|n q l l' H F]; [contradiction|]. cbn [map]. unfold npArray. rewrite (smapM_ok _ _ (map (fun q => Num (Q2R q)) (q :: l'))); [reflexivity|].
  clear. change (VN (Q2R q) :: map (fun q0 => VN (Q2R q0)) l') with (map (fun q0 => VN (Q2R q0)) (q :: l')). 
  assert (G : forall l, Forall2 (fun x y => toFlt parse x = SOk y) (map (fun q => VN (Q2R q)) l) (map (fun q => Num (Q2R q)) l)) by (clear; induction l; constructor; [reflexivity|assumption]).
  apply G.
Qed.
Lemma complete_lst parse key names ls : names <> [] -> NoDup names -> Forall2 (fun n l => entry n key = Some (LLst l) /\ List.length l = 15%nat) names ls ->
  completeSpecies parse key (fromNames names) refsp = SOk (D2 (map (map (fun q => Num (Q2R q))) ls)).
Proof.
  intros Ne Nd F. unfold completeSpecies. rewrite from_names by exact Nd.
  rewrite (smapM_ok _ _ (map (fun l => VL (map (fun q => VN (Q2R q)) l)) ls)). 2:{ clear Ne Nd. induction F as [|n q l l' [H _] F IH]; [constructor|]. cbn [map]. constructor; [exact (from_library _ _ _ H)|exact IH]. }
  cbn [sbind]. assert (L15 : forall l, In l ls -> List.length l = 15%nat) by (clear - F; induction F as [|n q l l' [_ H] F IH]; intros x I; [destruct I|destruct I as [<-|I]; auto]).
  destruct ls as [|l0 ls]; [inversion F; subst; contradiction|].
  assert (G : Forall2 (fun x y => rowOf parse x = SOk y) (map (fun l => VL (map (fun q => VN (Q2R q)) l)) (l0 :: ls)) (map (map (fun q => Num (Q2R q))) (l0 :: ls))).
  { generalize (l0 :: ls). clear. induction l as [|x l IH]; [constructor|]. cbn [map]. constructor; [|exact IH]. cbn [rowOf]. apply smapM_ok. induction x; constructor; [reflexivity|assumption]. }
  apply smapM_ok in G. cbn [map] in G |- *. unfold npArray. rewrite G. cbn [sbind].
  match goal with |- (if ?b then _ else _) = _ => replace b with true; [reflexivity|] end. symmetry. apply forallb_forall. intros r I. apply Nat.eqb_eq. rewrite map_length, (L15 l0) by now left.
  change (In r (map (map (fun q => Num (Q2R q))) (l0 :: ls))) in I. apply in_map_iff in I. destruct I as (x & <- & I). rewrite map_length. apply L15, I.
Qed.
(** every species has a positive molecular weight, and a good row if it has one at all *)
Lemma mw_entry n : inLibrary n -> exists q, entry n "MW" = Some (LNum q) /\ 0 < Q2R q.
Proof.
  intros (d & I). unfold entry. destruct (lookup n library) as [d'|] eqn:E.
  - apply lookup_In in E. pose proof library_mw as L. rewrite forallb_forall in L. specialize (L _ E). unfold mwOf in L. cbn [snd] in L. destruct (lookup "MW" d') as [[q| | |]|]; try discriminate. exists q. split; [reflexivity|].
    apply negb_true_iff in L. destruct (Rle_or_lt (Q2R q) 0) as [H|H]; [|exact H]. exfalso. assert (Q : Qle_bool q 0 = true) by (apply Qle_bool_iff; apply Rle_Qle; rewrite RMicromega.Q2R_0; exact H). congruence.
  - exfalso. revert I E. clear. generalize library. induction l as [|(k, v) l IH]; intros I E; [destruct I|]. cbn [lookup] in E. destruct (String.eqb_spec n k) as [->|N]; [discriminate|]. destruct I as [[= -> _]|I]; [contradiction|auto].
Qed.
Lemma nasa_entry n : hasNasa n -> inLibrary n /\ exists l, entry n "NASA7" = Some (LLst l) /\ rowOk l = true.
Proof.
  intros (r & H). unfold numbers, entry in *. destruct (lookup n library) as [d|] eqn:E; [|discriminate]. apply lookup_In in E. split; [exists d; exact E|].
  pose proof library_rows as L. rewrite forallb_forall in L. specialize (L _ E). unfold nasaOf in L. cbn [snd] in L. destruct (lookup "NASA7" d) as [[q|s|l|m]|]; try discriminate. exists l. auto.
Qed.

(** ** Mixtures *)
Section Gas.
Variables (parse : string -> option R) (names : list string) (th : thtr).
Hypothesis HN : Forall hasNasa names.
Hypothesis HG : gasOf parse names th.
Lemma gas_rows : ns th = Z.of_nat (List.length names) /\ (1 <= ns th)%Z /\ 0 < Ru th /\
  forall n, (0 <= n < ns th)%Z -> 0 < MW th n /\ exists l, rowOk l = true /\ forall k, (0 <= k < 15)%Z -> NASA7 th n k = nth (Z.to_nat k) (map Q2R l) 0.
Proof.
  destruct HG as (Ne & Nd & aM & M & aN & N & EM & VM & EN & VN & Ns & RU & PM & PN).
  assert (F1 : exists qs, Forall2 (fun n q => entry n "MW" = Some (LNum q) /\ 0 < Q2R q) names qs).
  { clear - HN. induction HN as [|n l H F IH]; [exists []; constructor|]. destruct (IH F) as (qs & Q). destruct (mw_entry n (proj1 (nasa_entry n H))) as (q & A). exists (q :: qs). constructor; auto. }
  assert (F2 : exists ls, Forall2 (fun n l => entry n "NASA7" = Some (LLst l) /\ rowOk l = true) names ls).
  { clear - HN. induction HN as [|n l H F IH]; [exists []; constructor|]. destruct (IH F) as (qs & Q). destruct (nasa_entry n H) as (_ & q & A). exists (q :: qs). constructor; auto. }
  destruct F1 as (qs & F1). destruct F2 as (ls & F2).
  rewrite (complete_num parse "MW" names qs Ne Nd) in EM by (clear - F1; induction F1 as [|? ? ? ? [? ?] ? ?]; constructor; auto).
  rewrite (complete_lst parse "NASA7" names ls Ne Nd) in EN by (clear - F2; induction F2 as [|? ? ? ? [? ?] ? ?]; constructor; auto; split; [assumption|apply rowOk_spec; assumption]).
  injection EM as <-. injection EN as <-. cbn [createView1 createView2] in VM, VN.
  destruct (Nat.eqb _ _) in VM; [|discriminate]. injection VM as <-. destruct (andb _ _) in VN; [|discriminate]. injection VN as <-.
  split; [exact Ns|]. split; [rewrite Ns; destruct names; [contradiction|cbn [List.length]; lia]|]. split; [exact RU|].
  intros n Hn. assert (Hi : (Z.to_nat n < List.length names)%nat) by lia. rewrite <- (Z2Nat.id n) by lia. set (i := Z.to_nat n) in *. clearbody i. 
  assert (A : forall (X : Type) (P : string -> X -> Prop) l, Forall2 P names l -> exists x y, nth_error l i = Some x /\ P y x).
  { clear - Hi. intros X P l F. revert i Hi. induction F as [|a b l l' H F IH]; intros i Hi; [cbn in Hi; lia|]. destruct i as [|i]; [exists b, a; auto|]. cbn [nth_error]. apply IH. cbn in Hi. lia. }
  destruct (A _ _ _ F1) as (q & y & Q1 & _ & Q2). destruct (A _ _ _ F2) as (l & z & L1 & _ & L2). split.
  - rewrite (PM i (Q2R q)); [exact Q2|]. rewrite nth_error_map, Q1. reflexivity.
  - exists l. split; [exact L2|]. intros k Hk. rewrite <- (Z2Nat.id k) at 1 by lia. destruct (rowOk_spec l L2) as (L15 & _).
    apply (PN i (map (fun q => Num (Q2R q)) l)); [rewrite nth_error_map, L1; reflexivity|]. rewrite nth_error_map.
    rewrite (nth_error_nth' l 0%Q) by lia. cbn [option_map]. f_equal. f_equal. rewrite (nth_indep _ 0 (Q2R 0)) by (rewrite map_length; lia). symmetry. apply map_nth.
Qed.
Lemma good : goodGas th.
Proof. destruct gas_rows as (_ & A & B & C). split; [exact A|]. split; [exact B|]. intros n Hn. apply C. exact Hn. Qed.
Lemma row_cp n l T : (forall k, (0 <= k < 15)%Z -> NASA7 th n k = nth (Z.to_nat k) (map Q2R l) 0) -> speciesCp th n T = Ru th / MW th n * rowCp (map Q2R l) T.
Proof.
  intros H. unfold speciesCp, rowCp, polyCp, nasaRange. cbv zeta. rewrite (H 0%Z) by lia. change (Z.to_nat 0) with 0%nat. destruct (Rle_dec T (nth 0 (map Q2R l) 0)); rewrite !H by lia; reflexivity.
Qed.
Lemma row_h n l T : (forall k, (0 <= k < 15)%Z -> NASA7 th n k = nth (Z.to_nat k) (map Q2R l) 0) -> speciesH th n T = Ru th / MW th n * rowH (map Q2R l) T.
Proof.
  intros H. unfold speciesH, rowH, polyH, nasaRange. cbv zeta. rewrite (H 0%Z) by lia. change (Z.to_nat 0) with 0%nat. destruct (Rle_dec T (nth 0 (map Q2R l) 0)); rewrite !H by lia; reflexivity.
Qed.
Lemma mix_cp y T : validFracs (ns th) y -> 200 <= T <= 5000 -> 247 / 100 * gasConstant th y <= mixtureCp th y T.
Proof.
  intros V HT. destruct gas_rows as (_ & N1 & RU & G). unfold gasConstant, mixtureCp. rewrite <- !sumZ_scale. apply sumZ_le. intros n Hn. destruct (G n Hn) as (P & l & O & E). rewrite (row_cp n l T E).
  pose proof (withLast_nonneg (ns th) y n V Hn) as W. pose proof (rowCp_least l T O HT) as B. assert (0 < / MW th n) by (apply Rinv_0_lt_compat; exact P). unfold Rdiv.
  assert (0 <= withLast (ns th) y n * (Ru th * / MW th n)) by (apply Rmult_le_pos; [exact W|apply Rmult_le_pos; lra]). nra.
Qed.
Lemma mix_rise y T1 T2 : validFracs (ns th) y -> 200 <= T1 -> T1 <= T2 -> T2 <= 5000 ->
  internalEnergy th y T2 - internalEnergy th y T1 >= gasConstant th y * (147 / 100 * (T2 - T1) - 19 / 1000) /\
  (sameRange th T1 T2 -> internalEnergy th y T2 - internalEnergy th y T1 >= gasConstant th y * (147 / 100 * (T2 - T1))).
Proof.
  intros V H1 H2 H3. destruct gas_rows as (_ & N1 & RU & G). unfold internalEnergy.
  assert (D : forall s : R, (forall n, (0 <= n < ns th)%Z -> s * (Ru th / MW th n) <= speciesH th n T2 - speciesH th n T1) -> s * gasConstant th y <= mixtureH th y T2 - mixtureH th y T1).
  { intros s Hs. unfold gasConstant, mixtureH. rewrite <- sumZ_minus, <- !sumZ_scale. apply sumZ_le. intros n Hn. specialize (Hs n Hn). pose proof (withLast_nonneg (ns th) y n V Hn) as W. unfold Rdiv in *. nra. }
  assert (K : forall n, (0 <= n < ns th)%Z -> 0 < Ru th / MW th n) by (intros n Hn; destruct (G n Hn); apply Rdiv_lt_0_compat; assumption).
  split.
  - specialize (D (247 / 100 * (T2 - T1) - 19 / 1000)). cut ((247 / 100 * (T2 - T1) - 19 / 1000) * gasConstant th y <= mixtureH th y T2 - mixtureH th y T1); [intros; nra|]. apply D.
    intros n Hn. destruct (G n Hn) as (P & l & O & E). rewrite !(row_h n l _ E). destruct (rowH_rise l T1 T2 O H1 H2 H3) as [A _]. specialize (K n Hn). nra.
  - intros S. specialize (D (247 / 100 * (T2 - T1))). cut ((247 / 100 * (T2 - T1)) * gasConstant th y <= mixtureH th y T2 - mixtureH th y T1); [intros; nra|]. apply D.
    intros n Hn. destruct (G n Hn) as (P & l & O & E). rewrite !(row_h n l _ E). destruct (rowH_rise l T1 T2 O H1 H2 H3) as [_ A]. specialize (K n Hn). specialize (S n Hn). rewrite (E 0%Z) in S by lia. specialize (A S). nra.
Qed.
End Gas.
(** ** The theorems *)
Definition keyOk (k : string) (d : list (string * lval)) : bool := match lookup k d with Some (LNum q) => negb (Qle_bool q 0) | _ => false end.
Lemma library_keys : forallb (fun k => forallb (fun e => keyOk k (snd e)) library) ["MW"; "cp0"; "mu0"; "kappa0"]%string = true.
Proof. vm_compute. reflexivity. Qed.
Lemma lookup_found n : inLibrary n -> exists d, lookup n library = Some d /\ In (n, d) library.
Proof.
  intros (d & I). destruct (lookup n library) as [d'|] eqn:E; [exists d'; split; [reflexivity|apply lookup_In; exact E]|]. exfalso. revert I E. clear. generalize library. induction l as [|(k, v) l IH]; intros I E; [destruct I|]. cbn [lookup] in E. destruct (String.eqb_spec n k) as [->|N]; [discriminate|]. destruct I as [[= -> _]|I]; [contradiction|auto].
Qed.
Lemma pos_q q : negb (Qle_bool q 0) = true -> 0 < Q2R q.
Proof. intros L. apply negb_true_iff in L. destruct (Rle_or_lt (Q2R q) 0) as [H|H]; [|exact H]. exfalso. assert (Q : Qle_bool q 0 = true) by (apply Qle_bool_iff; apply Rle_Qle; rewrite RMicromega.Q2R_0; exact H). congruence. Qed.
Lemma nasa_all : forallb (fun e => (String.eqb (fst e) "DB" || String.eqb (fst e) "Air" || match lookup "NASA7" (snd e) with Some (LLst _) => true | _ => false end)%bool) library = true.
Proof. vm_compute. reflexivity. Qed.
Lemma has_nasa n : inLibrary n -> n <> "DB"%string -> n <> "Air"%string -> hasNasa n.
Proof.
  intros I N1 N2. destruct (lookup_found n I) as (d & E & J). pose proof nasa_all as A. rewrite forallb_forall in A. specialize (A _ J). cbn [fst snd] in A. apply String.eqb_neq in N1, N2. rewrite N1, N2 in A. cbn [orb] in A.
  unfold hasNasa, numbers, entry. rewrite E. destruct (lookup "NASA7" d) as [[q|s|l|m]|]; try discriminate. eauto.
Qed.
(** the data for a constant-property gas is there for every species, and that for a thermally perfect gas for all but the two invented ones *)
Theorem C153_available : forall parse names, names <> [] -> NoDup names -> Forall inLibrary names ->
  (forall key, In key ["MW"; "cp0"; "mu0"; "kappa0"]%string -> exists a l, completeSpecies parse key (fromNames names) refsp = SOk a /\ createView1 (List.length names) a = SOk l /\ Forall (fun f => exists x, f = Num x /\ 0 < x) l) /\
  (~ In "DB"%string names -> ~ In "Air"%string names -> forall R0, 0 < R0 -> exists th, Ru th = R0 /\ gasOf parse names th).
Proof.
  intros parse names Ne Nd F. split.
  - intros key K. assert (Q : exists qs, Forall2 (fun n q => entry n key = Some (LNum q) /\ 0 < Q2R q) names qs).
    { clear Ne Nd. induction F as [|n l H F IH]; [exists []; constructor|]. destruct IH as (qs & Q). pose proof library_keys as L. rewrite forallb_forall in L. specialize (L _ K). rewrite forallb_forall in L. destruct (lookup_found n H) as (d & E & J). specialize (L _ J). unfold keyOk in L. cbn [snd] in L.
      destruct (lookup key d) as [[q| | |]|] eqn:Ek; try discriminate. exists (q :: qs). constructor; [|exact Q]. split; [unfold entry; rewrite E; exact Ek|apply pos_q; exact L]. }
    destruct Q as (qs & Q). exists (D1 (map (fun q => Num (Q2R q)) qs)), (map (fun q => Num (Q2R q)) qs). split; [apply complete_num; [exact Ne|exact Nd|]; clear - Q; induction Q as [|? ? ? ? [? ?] ? ?]; constructor; auto|]. cbn [createView1].
    assert (L : List.length qs = List.length names) by (clear - Q; induction Q; cbn; congruence). rewrite map_length, L, Nat.eqb_refl. split; [reflexivity|].
    clear - Q. induction Q as [|? ? ? ? [? ?] ? ?]; constructor; eauto.
  - intros NDB NA R0 HR. assert (HN : Forall hasNasa names). { apply Forall_forall. intros n I. rewrite Forall_forall in F. apply has_nasa; [auto|intros ->; contradiction|intros ->; contradiction]. }
    assert (F1 : exists qs, Forall2 (fun n q => entry n "MW" = Some (LNum q)) names qs).
    { clear - HN. induction HN as [|n l H F IH]; [exists []; constructor|]. destruct IH as (qs & Q). destruct (mw_entry n (proj1 (nasa_entry n H))) as (q & A & _). exists (q :: qs). constructor; auto. }
    assert (F2 : exists ls, Forall2 (fun n l => entry n "NASA7" = Some (LLst l) /\ List.length l = 15%nat) names ls).
    { clear - HN. induction HN as [|n l H F IH]; [exists []; constructor|]. destruct IH as (qs & Q). destruct (nasa_entry n H) as (_ & q & A & B). exists (q :: qs). constructor; [split; [exact A|apply rowOk_spec; exact B]|exact Q]. }
    destruct F1 as (qs & F1). destruct F2 as (ls & F2).
    exists (mkTh (Z.of_nat (List.length names)) R0 (fun n => Q2R (nth (Z.to_nat n) qs 0%Q)) (fun _ => 0) (fun n k => Q2R (nth (Z.to_nat k) (nth (Z.to_nat n) ls []) 0%Q)) (fun _ => 0) (fun _ => 0) (fun _ => 0)). split; [reflexivity|].
    split; [exact Ne|]. split; [exact Nd|]. eexists _, _, _, _. split; [apply complete_num; eassumption|]. cbn [createView1].
    assert (L1 : List.length qs = List.length names) by (clear - F1; induction F1; cbn; congruence). assert (L2 : List.length ls = List.length names) by (clear - F2; induction F2; cbn; congruence).
    rewrite map_length, L1, Nat.eqb_refl. split; [reflexivity|]. split; [apply complete_lst; eassumption|]. cbn [createView2]. rewrite map_length, L2, Nat.eqb_refl.
    replace (forallb _ _) with true. 2:{ symmetry. apply forallb_forall. intros r I. apply in_map_iff in I. destruct I as (x & <- & I). rewrite map_length. apply Nat.eqb_eq. clear - F2 I. induction F2 as [|? ? ? ? [? H] F IH]; [destruct I|destruct I as [<-|I]; auto]. }
    cbn [andb]. split; [reflexivity|]. cbn [ns Ru MW NASA7]. split; [reflexivity|]. split; [exact HR|]. split.
    + intros i m E. rewrite Nat2Z.id. rewrite nth_error_map in E. destruct (nth_error qs i) as [q|] eqn:Eq; [|discriminate]. cbn [option_map] in E. injection E as <-. rewrite (nth_error_nth _ _ _ Eq). reflexivity.
    + intros i r k x E1 E2. rewrite !Nat2Z.id. rewrite nth_error_map in E1. destruct (nth_error ls i) as [l|] eqn:El; [|discriminate]. cbn [option_map] in E1. injection E1 as <-. rewrite (nth_error_nth _ _ _ El).
      rewrite nth_error_map in E2. destruct (nth_error l k) as [q|] eqn:Eq; [|discriminate]. cbn [option_map] in E2. injection E2 as <-. rewrite (nth_error_nth _ _ _ Eq). reflexivity.
Qed.
(** between 200 K and 5000 K every mixture has a heat capacity well above its gas constant; the solver then has a ratio of heat capacities between 1 and 1.69 and a real speed of sound *)
Theorem C153_heat_capacity : forall parse names th y T, Forall hasNasa names -> gasOf parse names th -> validFracs (ns th) y -> 200 <= T <= 5000 ->
  0 < gasConstant th y /\ 247 / 100 * gasConstant th y <= mixtureCp th y T.
Proof. intros parse names th y T HN HG V HT. split; [apply gas_pos; [eapply good; eassumption|exact V]|]. eapply mix_cp; eassumption. Qed.
Theorem C153_ratio_and_sound : forall parse names th c, Forall hasNasa names -> gasOf parse names th -> validFracs (ns th) (fracs c) -> 200 <= cq c 4%Z <= 5000 ->
  let c' := tpgPrims th c in let gamma := ch c' 0%Z in 1 < gamma < 169 / 100 /\ 0 < ch c' 3%Z /\ ch c' 3%Z ^ 2 = gamma * gasConstant th (fracs c) * cq c 4%Z.
Proof.
  intros parse names th c HN HG V HT c' gamma. destruct (C153_heat_capacity parse names th (fracs c) (cq c 4%Z) HN HG V HT) as (RP & CP).
  assert (Pid: forall l, clipPrims (ns th) (cq c) l = cq c l) by (intros; now apply clipPrims_id).
  assert (EY: forall n, (0 <= n < ns th)%Z -> primsY (ns th) (cq c) n = withLast (ns th) (fracs c) n).
  { intros n Hn. destruct (primsY_valid (ns th) (cq c)) as (_ & W). rewrite W by auto. apply withLast_ext; auto. intros. now apply primsY_id. }
  assert (G : gamma = mixtureCp th (fracs c) (cq c 4%Z) / (mixtureCp th (fracs c) (cq c 4%Z) - gasConstant th (fracs c))).
  { unfold gamma, c', tpgPrims. cbv zeta. cbn [ch]. unfold storeqh. cbn [Z.eqb Pos.eqb]. rewrite (mixR_gas th _ (fracs c)) by exact EY. rewrite Pid. rewrite (tpgCp_spec th _ (fracs c)) by exact EY. reflexivity. }
  assert (S : ch c' 3%Z = sqrt (gamma * gasConstant th (fracs c) * cq c 4%Z)).
  { rewrite G. unfold c', tpgPrims. cbv zeta. cbn [ch]. unfold storeqh. cbn [Z.eqb Pos.eqb]. rewrite (mixR_gas th _ (fracs c)) by exact EY. rewrite Pid. rewrite (tpgCp_spec th _ (fracs c)) by exact EY. reflexivity. }
  set (cp := mixtureCp th (fracs c) (cq c 4%Z)) in *. set (r := gasConstant th (fracs c)) in *. clearbody cp r gamma.
  assert (B : 1 < gamma < 169 / 100).
  { rewrite G. assert (0 < cp - r) by lra. split; [apply Rmult_lt_reg_r with (cp - r)|apply Rmult_lt_reg_r with (cp - r)]; try lra; unfold Rdiv; rewrite ?Rmult_assoc, Rinv_l by lra; lra. }
  split; [exact B|]. rewrite S. assert (0 < gamma * r * cq c 4%Z) by (apply Rmult_lt_0_compat; [apply Rmult_lt_0_compat; lra|lra]).
  split; [apply sqrt_lt_R0; assumption|]. rewrite <- Rsqr_pow2, Rsqr_sqrt; lra.
Qed.
(** and its internal energy determines its temperature: exactly as long as no species changes its range of coefficients, and to 13 millikelvin otherwise *)
Theorem C153_energy_increases : forall parse names th y T1 T2, Forall hasNasa names -> gasOf parse names th -> validFracs (ns th) y -> 200 <= T1 -> T1 < T2 -> T2 <= 5000 ->
  (sameRange th T1 T2 \/ 13 / 1000 <= T2 - T1) -> internalEnergy th y T1 < internalEnergy th y T2.
Proof.
  intros parse names th y T1 T2 HN HG V H1 H2 H3 [S|S]; destruct (mix_rise parse names th HN HG y T1 T2 V H1 ltac:(lra) H3) as [A B]; destruct (C153_heat_capacity parse names th y T1 HN HG V ltac:(lra)) as (RP & _).
  - specialize (B S). nra.
  - nra.
Qed.
(** a temperature that reproduces the energy of a gas at T0 to the solver's tolerance is T0 to 20 millikelvin *)
Theorem C153_temperature_found : forall parse names th y T0 T, Forall hasNasa names -> gasOf parse names th -> validFracs (ns th) y -> 200 <= T0 <= 5000 -> 200 <= T <= 5000 ->
  / 10 ^ 6 <= gasConstant th y -> Rabs (internalEnergy th y T - internalEnergy th y T0) <= / 10 ^ 8 -> Rabs (T - T0) <= / 50.
Proof.
  intros parse names th y T0 T HN HG V H0 H1 RB E. destruct (C153_heat_capacity parse names th y T HN HG V ltac:(lra)) as (RP & _). set (r := gasConstant th y) in *.
  assert (X : forall a b, 200 <= a -> a <= b -> b <= 5000 -> Rabs (internalEnergy th y b - internalEnergy th y a) <= / 10 ^ 8 -> b - a <= / 50).
  { intros a b A1 A2 A3 Q. destruct (mix_rise parse names th HN HG y a b V A1 A2 A3) as [B _]. fold r in B. pose proof (Rle_abs (internalEnergy th y b - internalEnergy th y a)). destruct (Rle_or_lt (b - a) (/ 50)) as [L|L]; [exact L|exfalso].
    assert (147 / 100 * (b - a) - 19 / 1000 > 104 / 10000) by lra. assert (r * (147 / 100 * (b - a) - 19 / 1000) > / 10 ^ 6 * (104 / 10000)) by nra. lra. }
  destruct (Rle_dec T0 T); [rewrite Rabs_pos_eq by lra; apply X; lra|]. rewrite Rabs_left1 by lra. rewrite Rabs_minus_sym in E. specialize (X T T0). lra.
Qed.
(** a real number near a rational one *)
Definition close (a b tol : Q) : bool := (Qle_bool (a - b) tol && Qle_bool (b - a) tol)%bool.
Lemma close_spec a b tol : close a b tol = true -> Rabs (Q2R a - Q2R b) <= Q2R tol.
Proof.
  unfold close. rewrite andb_true_iff. intros [A B]. apply Qle_bool_iff, Qle_Rle in A, B. rewrite Q2R_minus in A, B. apply Rabs_le. lra.
Qed.
Definition weightOk (e : string * list (string * lval)) : bool :=
  (String.eqb (fst e) "DB" || String.eqb (fst e) "Air" || String.eqb (fst e) "SF6" ||
   match lookup "comp" (snd e), lookup "MW" (snd e) with Some (LMap l), Some (LNum q) => match weight l with Some w => close q w (1 # 100000000000000) | None => false end | _, _ => false end)%bool.
Lemma library_weights : forallb weightOk library = true.
Proof. vm_compute. reflexivity. Qed.
(** molecular weights are those of the formulas *)
Theorem C153_molecular_weights : forall n, inLibrary n -> ~ In n ["DB"; "Air"; "SF6"]%string ->
  exists formula w m, entry n "comp" = Some (LMap formula) /\ weight formula = Some w /\ number n "MW" = Some m /\ Rabs (m - Q2R w) <= / 10 ^ 14.
Proof.
  intros n I N. destruct (lookup_found n I) as (d & E & J). pose proof library_weights as A. rewrite forallb_forall in A. specialize (A _ J). unfold weightOk in A. cbn [fst snd] in A.
  assert (X : forall s, In s ["DB"; "Air"; "SF6"]%string -> String.eqb n s = false) by (intros s Hs; apply String.eqb_neq; intros ->; contradiction).
  rewrite !X in A by (cbn [In]; auto). cbn [orb] in A. unfold number, entry. rewrite E. destruct (lookup "comp" d) as [[q0|s0|l0|l]|]; try discriminate. destruct (lookup "MW" d) as [[q|s1|l1|m1]|]; try discriminate.
  destruct (weight l) as [w|] eqn:W; [|discriminate]. exists l, w, (Q2R q). split; [reflexivity|]. split; [exact W|]. split; [reflexivity|]. apply close_spec in A.
  replace (/ 10 ^ 14) with (Q2R (1 # 100000000000000)); [exact A|]. rewrite Q2R_inv. f_equal. lra.
Qed.
(** that of SF6 is not: it is too large by almost one *)
Theorem C153_sulfur_hexafluoride_refuted : exists formula w m, entry "SF6" "comp" = Some (LMap formula) /\ formula = [("S"%string, (1 # 1)%Q); ("F"%string, (6 # 1)%Q)] /\ weight formula = Some w /\ number "SF6" "MW" = Some m /\ 93 / 100 < m - Q2R w.
Proof.
  exists [("S"%string, (1 # 1)%Q); ("F"%string, (6 # 1)%Q)]. assert (W : exists w, weight [("S"%string, (1 # 1)%Q); ("F"%string, (6 # 1)%Q)] = Some w /\ (Qeq w (146048 # 1000))%Q) by (eexists; split; [reflexivity|reflexivity]).
  destruct W as (w & W & Ew). exists w, (Q2R (146980338 # 1000000)). split; [reflexivity|]. split; [reflexivity|]. split; [exact W|]. split; [reflexivity|].
  rewrite (Qeq_eqR _ _ Ew). unfold Q2R. cbn [Qnum Qden]. lra.
Qed.
(** cp0 is the heat capacity of the fit at 298 K *)
Definition fitQ (l : list Q) : Q := let a k := nth k l 0%Q in (a 8%nat + 298 * (a 9%nat + 298 * (a 10%nat + 298 * (a 11%nat + 298 * a 12%nat))))%Q.
Definition theRu : Q := match lookup "Ru" libConstants with Some q => q | None => 0%Q end.
Definition cpOk (e : string * list (string * lval)) : bool :=
  (String.eqb (fst e) "SF6" || match lookup "cp0" (snd e), lookup "MW" (snd e), lookup "NASA7" (snd e) with
    | Some (LNum c), Some (LNum m), Some (LLst l) => close (c * m) (fitQ l * theRu) (c * m * (1 # 1000000)) | _, _, None => true | _, _, _ => false end)%bool.
Lemma library_cp : forallb cpOk library = true.
Proof. vm_compute. reflexivity. Qed.
Lemma fit_spec l : rowOk l = true -> fitCp (map Q2R l) 298 = Q2R (fitQ l).
Proof.
  intros H. destruct (rowOk_spec l H) as (L15 & B & _). cbv zeta in B. unfold fitCp. cbv zeta. destruct Rle_dec as [_|N]; [|exfalso; lra]. cbn [plus].
  assert (E : forall k, nth k (map Q2R l) 0 = Q2R (nth k l 0%Q)) by (intros k; rewrite <- RMicromega.Q2R_0; apply map_nth). rewrite !E. unfold fitQ.
  repeat (rewrite Q2R_plus || rewrite Q2R_mult). rewrite (Q2R_int 298). ring.
Qed.
Theorem C153_constant_cp : forall n r, inLibrary n -> n <> "SF6"%string -> numbers n "NASA7" = Some r ->
  exists cp m, number n "cp0" = Some cp /\ number n "MW" = Some m /\ Rabs (cp - fitCp r 298 * Q2R theRu / m) <= cp / 10 ^ 6.
Proof.
  intros n r I N Hr. destruct (lookup_found n I) as (d & E & J). pose proof library_cp as A. rewrite forallb_forall in A. specialize (A _ J). unfold cpOk in A. cbn [fst snd] in A.
  apply String.eqb_neq in N. rewrite N in A. cbn [orb] in A. assert (HN : hasNasa n) by (exists r; exact Hr). destruct (mw_entry n I) as (m & Em & Pm). destruct (nasa_entry n HN) as (_ & l & El & O).
  unfold numbers in Hr. rewrite El in Hr. injection Hr as <-. unfold number. rewrite Em. unfold entry in *. rewrite E in *. rewrite Em, El in A. destruct (lookup "cp0" d) as [[c|s0|l0|l1]|]; try discriminate.
  exists (Q2R c), (Q2R m). split; [reflexivity|]. split; [reflexivity|]. apply close_spec in A. rewrite (fit_spec l O). rewrite !Q2R_mult in A. rewrite Q2R_inv in A.
  replace (Q2R c - Q2R (fitQ l) * Q2R theRu / Q2R m) with ((Q2R c * Q2R m - Q2R (fitQ l) * Q2R theRu) * / Q2R m) by (field; lra).
  rewrite Rabs_mult, (Rabs_pos_eq (/ Q2R m)) by (left; apply Rinv_0_lt_compat; exact Pm). apply Rmult_le_reg_r with (Q2R m); [exact Pm|]. rewrite Rmult_assoc, Rinv_l by lra. rewrite Rmult_1_r.
  replace (Q2R c / 10 ^ 6 * Q2R m) with (Q2R c * Q2R m * / 1000000) by field. exact A.
Qed.
(** except for SF6, where they differ by more than 4 parts in ten thousand *)
Theorem C153_sf6_cp_refuted : exists r cp m, numbers "SF6" "NASA7" = Some r /\ number "SF6" "cp0" = Some cp /\ number "SF6" "MW" = Some m /\ 4 / 10 ^ 4 * cp < cp - fitCp r 298 * Q2R theRu / m.
Proof.
  assert (E : exists l, entry "SF6" "NASA7" = Some (LLst l) /\ rowOk l = true /\ Qle_bool (fitQ l * theRu + (5 # 10000) * 1) ((6599522175544325 # 10000000000000) * (146980338 # 1000000) * (9996 # 10000))%Q = true).
  { eexists. split; [reflexivity|]. split; vm_compute; reflexivity. }
  destruct E as (l & El & O & C). exists (map Q2R l), (Q2R (6599522175544325 # 10000000000000)), (Q2R (146980338 # 1000000)). unfold numbers. rewrite El. split; [reflexivity|]. split; [reflexivity|]. split; [reflexivity|].
  rewrite (fit_spec l O). apply Qle_bool_iff, Qle_Rle in C. repeat (rewrite Q2R_plus in C || rewrite Q2R_mult in C). set (f := Q2R (fitQ l)) in *. set (r := Q2R theRu) in *. clearbody f r.
  assert (M : Q2R (146980338 # 1000000) = 146980338 / 1000000) by reflexivity. assert (P : Q2R (6599522175544325 # 10000000000000) = 6599522175544325 / 10000000000000) by reflexivity.
  assert (Z0 : Q2R (5 # 10000) = 5 / 10000) by reflexivity. assert (Z1 : Q2R (9996 # 10000) = 9996 / 10000) by reflexivity. assert (Z2 : Q2R 1 = 1) by apply Q2R_int. rewrite Z0, Z1, Z2 in C. rewrite M, P in *.
  apply Rmult_lt_reg_r with (146980338 / 1000000); [lra|]. replace ((6599522175544325 / 10000000000000 - f * r / (146980338 / 1000000)) * (146980338 / 1000000)) with (6599522175544325 / 10000000000000 * (146980338 / 1000000) - f * r) by field. lra.
Qed.
(** the constant heat capacity of every species, the two invented ones included, is far enough above its gas constant *)
Definition cpgOk (e : string * list (string * lval)) : bool :=
  match lookup "cp0" (snd e), lookup "MW" (snd e) with Some (LNum c), Some (LNum m) => Qle_bool ((247 # 100) * theRu) (c * m) | _, _ => false end.
Lemma library_cpg : forallb cpgOk library = true.
Proof. vm_compute. reflexivity. Qed.
Theorem C153_calorically_perfect : forall n, inLibrary n -> exists cp m, number n "cp0" = Some cp /\ number n "MW" = Some m /\ 0 < m /\ 247 / 100 * (Q2R theRu / m) <= cp.
Proof.
  intros n I. destruct (lookup_found n I) as (d & E & J). pose proof library_cpg as A. rewrite forallb_forall in A. specialize (A _ J). unfold cpgOk in A. cbn [snd] in A. destruct (mw_entry n I) as (m & Em & Pm).
  unfold number. rewrite Em. unfold entry in *. rewrite E in *. rewrite Em in A. destruct (lookup "cp0" d) as [[c|s0|l0|l1]|]; try discriminate. exists (Q2R c), (Q2R m). split; [reflexivity|]. split; [reflexivity|]. split; [exact Pm|].
  apply Qle_bool_iff, Qle_Rle in A. rewrite !Q2R_mult in A. replace (Q2R (247 # 100)) with (247 / 100) in A by reflexivity. apply Rmult_le_reg_r with (Q2R m); [exact Pm|]. replace (247 / 100 * (Q2R theRu / Q2R m) * Q2R m) with (247 / 100 * Q2R theRu) by (field; lra). exact A.
Qed.
(** its critical pressure is text to the YAML reader: accepted behind another species, and an error in front *)
Theorem C153_critical_pressure_refuted : forall parse r, parse "2.749e6"%string = Some r ->
  (exists a l, completeSpecies parse "pcrit" (fromNames ["N2"; "SF6"]%string) refsp = SOk a /\ createView1 2 a = SOk l) /\
  exists a x, completeSpecies parse "pcrit" (fromNames ["SF6"; "N2"]%string) refsp = SOk a /\ createView1 2 a = SErr x.
Proof.
  intros parse r P. assert (N2 : exists q, entry "N2" "pcrit" = Some (LNum q)) by (eexists; reflexivity). destruct N2 as (q & N2). assert (SF : entry "SF6" "pcrit" = Some (LTxt "2.749e6")) by reflexivity.
  apply from_library in N2, SF. unfold completeSpecies, fromNames. change (dedup [] ["N2"; "SF6"]%string) with ["N2"; "SF6"]%string. change (dedup [] ["SF6"; "N2"]%string) with ["SF6"; "N2"]%string. cbn [map smapM]. rewrite N2, SF. cbn [sbind toVal].
  split.
  - exists (D1 [Num (Q2R q); Num r]), [Num (Q2R q); Num r]. split; [|reflexivity]. cbn [npArray smapM toFlt sbind]. rewrite P. reflexivity.
  - eexists _, _. split; reflexivity.
Qed.
(** two temperatures with one energy: the enthalpy of C3H7 falls where its coefficients change, at 1000 K *)
Lemma exactly_one (c : R) a : continuity (fun T => polyH a T - T - c).
Proof.
  intros T. apply derivable_continuous_pt. exists ((1 * (a 0%nat + a 1%nat * T + a 2%nat * T ^ 2 + a 3%nat * T ^ 3 + a 4%nat * T ^ 4) - 1) - 0).
  apply (derivable_pt_lim_minus (fun T => polyH a T - T) (fun _ => c)); [|apply derivable_pt_lim_const]. apply (derivable_pt_lim_minus (polyH a) id); [|apply derivable_pt_lim_id].
  apply (derivable_pt_lim_locally_ext (fun T => 1 * (a 5%nat + a 0%nat * T + a 1%nat / 2 * T ^ 2 + a 2%nat / 3 * T ^ 3 + a 3%nat / 4 * T ^ 4 + a 4%nat / 5 * T ^ 5)) _ T (T - 1) (T + 1)); [lra|intros; unfold polyH; ring|apply poly_deriv].
Qed.
Theorem C153_two_temperatures_refuted : forall parse, exists th, gasOf parse ["C3H7"%string] th /\
  forall y, exists T, 1000 < T < 1001 /\ internalEnergy th y T = internalEnergy th y 1000.
Proof.
  intros parse. assert (HI : inLibrary "C3H7"). { unfold inLibrary. eexists. unfold library. cbn [In]. do 51 right. left. reflexivity. }
  destruct (C153_available parse ["C3H7"%string]) as (_ & AV); [discriminate|constructor; [intros []|constructor]|constructor; [exact HI|constructor]|].
  destruct (AV ltac:(intros [H|[]]; discriminate) ltac:(intros [H|[]]; discriminate) 1 ltac:(lra)) as (th & RU & HG). exists th. split; [exact HG|]. intros y.
  assert (HN : Forall hasNasa ["C3H7"%string]) by (constructor; [apply has_nasa; [exact HI|discriminate|discriminate]|constructor]).
  pose proof HG as (_ & _ & aM & M & aN & N & EM & VM & EN & VN & Ns & _ & PM & PN). cbn [List.length] in Ns. change (Z.of_nat 1) with 1%Z in Ns.
  assert (L : exists l, entry "C3H7" "NASA7" = Some (LLst l) /\ rowOk l = true /\ nth 0 l 0%Q = (1000 # 1)%Q /\
     (forall h0 h1 h2 h3 h4 h5 h6 l0 l1 l2 l3 l4 l5 l6 tb, l = [tb; h0; h1; h2; h3; h4; h5; h6; l0; l1; l2; l3; l4; l5; l6] -> Qle_bool (enth h0 h1 h2 h3 h4 h5 tb - enth l0 l1 l2 l3 l4 l5 tb) (- (18 # 1000)) = true)).
  { eexists. split; [reflexivity|]. split; [vm_compute; reflexivity|]. split; [reflexivity|]. intros. injection H as <- <- <- <- <- <- <- <- <- <- <- <- <- <- <-. vm_compute. reflexivity. }
  destruct L as (l & El & O & T0 & J).
  assert (EN' : completeSpecies parse "NASA7" (fromNames ["C3H7"%string]) refsp = SOk (D2 (map (map (fun q => Num (Q2R q))) [l]))).
  { apply complete_lst; [discriminate|constructor; [intros []|constructor]|]. constructor; [|constructor]. split; [exact El|apply rowOk_spec; exact O]. }
  rewrite EN in EN'. injection EN' as ->. cbn [map createView2 List.length] in VN. destruct (andb _ _) in VN; [|discriminate]. injection VN as <-.
  destruct (rowOk_spec l O) as (L15 & B & LO & HI' & _). cbv zeta in *.
  assert (E : forall k, (0 <= k < 15)%Z -> NASA7 th 0 k = nth (Z.to_nat k) (map Q2R l) 0).
  { intros k Hk. rewrite <- (Z2Nat.id k) at 1 by lia. apply (PN 0%nat _ (Z.to_nat k) _ eq_refl). rewrite nth_error_map, (nth_error_nth' l 0%Q) by lia. cbn [option_map]. f_equal. f_equal. rewrite (nth_indep _ 0 (Q2R 0)) by (rewrite map_length; lia). symmetry. apply map_nth. }
  assert (TB : nth 0 (map Q2R l) 0 = 1000). { rewrite (nth_indep _ 0 (Q2R 0)) by (rewrite map_length; lia). rewrite map_nth, T0. apply Q2R_int. }
  assert (JJ : polyH (highOf (map Q2R l)) 1000 - polyH (lowOf (map Q2R l)) 1000 <= - (18 / 1000)).
  { clear - J L15 TB. do 15 (destruct l as [|? l]; [discriminate|]). destruct l; [|discriminate]. specialize (J _ _ _ _ _ _ _ _ _ _ _ _ _ _ _ eq_refl). apply Qle_bool_iff, Qle_Rle in J. rewrite Q2R_minus, Q2R_opp in J.
    rewrite (enth_spec q0 q1 q2 q3 q4 q5 q (highOf (map Q2R [q; q0; q1; q2; q3; q4; q5; q6; q7; q8; q9; q10; q11; q12; q13]))) in J by reflexivity.
    rewrite (enth_spec q7 q8 q9 q10 q11 q12 q (lowOf (map Q2R [q; q0; q1; q2; q3; q4; q5; q6; q7; q8; q9; q10; q11; q12; q13]))) in J by reflexivity.
    cbn [map nth] in TB. rewrite TB in J. replace (Q2R (18 # 1000)) with (18 / 1000) in J by (unfold Q2R; cbn [Qnum Qden]; lra). exact J. }
  assert (W : forall T, internalEnergy th y T = Ru th / MW th 0 * (rowH (map Q2R l) T - T)).
  { intros T. unfold internalEnergy, mixtureH, gasConstant. rewrite Ns. unfold sumZ. change (zrange 0 1) with [0%Z]. cbn [map fold_right]. rewrite (row_h th 0 l T E).
    replace (withLast 1 y 0) with 1 by (unfold withLast, sumZ; cbn; lra). unfold Rdiv. ring. }
  set (r := map Q2R l) in *. set (c := polyH (lowOf r) 1000 - 1000).
  assert (F0 : polyH (highOf r) 1000 - 1000 - c < 0) by (unfold c; lra).
  assert (F1 : 0 < polyH (highOf r) 1001 - 1001 - c).
  { destruct (polyH_mean (highOf r) 1000 1001 ltac:(lra)) as (x & X & Ex). pose proof (HI' x ltac:(lra)) as Hx. destruct (rowOk_spec l O) as (_ & _ & _ & _ & Jm). cbv zeta in Jm. fold r in Jm. rewrite TB in Jm. unfold c. nra. }
  destruct (IVT (fun T => polyH (highOf r) T - T - c) 1000 1001 (exactly_one c (highOf r)) ltac:(lra) F0 F1) as (T & HT & Z0). cbv beta in Z0.
  assert (T <> 1000) by (intros ->; lra). assert (T <> 1001) by (intros ->; lra). exists T. split; [lra|]. rewrite !W. f_equal. unfold rowH. rewrite TB. destruct (Rle_dec T 1000); [lra|]. destruct (Rle_dec 1000 1000); [|lra]. unfold c in Z0. lra.
Qed.
(** air of four species, with a break at 1000 K *)
Example C153_nonvacuous : forall parse, exists th y, gasOf parse ["N2"; "O2"; "H2O"; "SF6"]%string th /\ Forall hasNasa ["N2"; "O2"; "H2O"; "SF6"]%string /\ validFracs (ns th) y /\ y 1%Z = 1 / 5 /\
  internalEnergy th y 999 < internalEnergy th y 1001 /\ Ru th = 8314.
Proof.
  intros parse. assert (I : Forall inLibrary ["N2"; "O2"; "H2O"; "SF6"]%string) by (repeat (constructor; [eexists; apply lookup_In; reflexivity|]); constructor).
  assert (N : NoDup ["N2"; "O2"; "H2O"; "SF6"]%string) by (repeat (constructor; [cbn [In]; intros H; repeat destruct H as [H|H]; try contradiction; discriminate|]); constructor).
  destruct (C153_available parse ["N2"; "O2"; "H2O"; "SF6"]%string ltac:(discriminate) N I) as (_ & AV).
  destruct (AV ltac:(cbn [In]; intros H; repeat destruct H as [H|H]; try contradiction; discriminate) ltac:(cbn [In]; intros H; repeat destruct H as [H|H]; try contradiction; discriminate) 8314 ltac:(lra)) as (th & RU & HG).
  exists th, (fun n => if (n =? 0)%Z then 3 / 4 else if (n =? 1)%Z then 1 / 5 else 0). split; [exact HG|].
  assert (HN : Forall hasNasa ["N2"; "O2"; "H2O"; "SF6"]%string) by (rewrite Forall_forall in *; intros n H; apply has_nasa; [auto|intros ->; cbn [In] in H; repeat destruct H as [H|H]; try contradiction; discriminate|intros ->; cbn [In] in H; repeat destruct H as [H|H]; try contradiction; discriminate]).
  split; [exact HN|]. assert (Ns : ns th = 4%Z) by (destruct HG as (_ & _ & ? & ? & ? & ? & _ & _ & _ & _ & E & _); exact E).
  assert (V : validFracs (ns th) (fun n => if (n =? 0)%Z then 3 / 4 else if (n =? 1)%Z then 1 / 5 else 0)).
  { rewrite Ns. split; [intros n Hn; destruct (n =? 0)%Z, (n =? 1)%Z; lra|]. unfold sumZ. change (zrange 0 (4 - 1)) with [0; 1; 2]%Z. cbn. lra. }
  split; [exact V|]. split; [reflexivity|]. split; [|exact RU]. apply (C153_energy_increases parse _ th _ 999 1001 HN HG V); lra.
Qed.
Print Assumptions C153_temperature_found.
Print Assumptions C153_ratio_and_sound.
Print Assumptions C153_two_temperatures_refuted.
Print Assumptions C153_constant_cp.
