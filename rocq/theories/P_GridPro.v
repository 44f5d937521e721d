(** C129: labels and connectivity of a GridPro grid.  C130: the two sides of a translational periodicity. *)
From Coq Require Import Reals ZArith String Ascii List Bool Lia Lra Permutation.
From Verif Require Import M_Config P_Config M_Topology M_Cut M_Verify M_Species M_GridPro S_GridPro.
Import ListNotations.
Open Scope string_scope.

(** ** strip *)
Lemma inChars_in c cs : inChars c cs = true <-> In c (list_ascii_of_string cs).
Proof. induction cs as [|d r IH]; cbn; [split; [discriminate|tauto]|]. rewrite orb_true_iff, IH, Ascii.eqb_eq. split; intros [H|H]; auto. Qed.
Lemma lstrip_keep cs c r : inChars c cs = false -> lstrip cs (String c r) = String c r. Proof. intros H. cbn [lstrip]. now rewrite H. Qed.
Lemma lstrip_app cs p s : (forall c, In c (list_ascii_of_string p) -> inChars c cs = true) -> lstrip cs (p ++ s) = lstrip cs s.
Proof. induction p as [|c p IH]; intros H; [reflexivity|]. cbn [append lstrip]. rewrite H by (now left). apply IH. intros d Hd. apply H. now right. Qed.
Lemma rstrip_keep cs r c : inChars c cs = false -> rstrip cs (r ++ String c "") = r ++ String c "".
Proof.
  intros H. induction r as [|d r IH]; cbn [append rstrip]; [now rewrite H|]. rewrite IH. destruct r; reflexivity.
Qed.
Lemma notPdc c : ~ In c ["p"; "d"; "c"; ":"]%char -> inChars c "pdc:" = false.
Proof. intros H. destruct (inChars c "pdc:") eqn:E; [|reflexivity]. apply inChars_in in E. contradiction. Qed.
Lemma surfaceName_safe name : endsSafe name -> ~ In ("pdc:" ++ name) ["pdc:INTERBLK"; "pdc:WALL"; "pdc:user8"] -> surfaceName ("pdc:" ++ name) = name.
Proof.
  intros [(c & r & E & Hc) (r' & c' & E' & Hc')] Hn. unfold surfaceName.
  assert (L : lookup ("pdc:" ++ name) [("pdc:INTERBLK", "b0"); ("pdc:WALL", "adiabaticNoSlipWall"); ("pdc:user8", "adiabaticSlipWall")] = None).
  { cbn [lookup]. repeat match goal with |- context [String.eqb ?a ?b] => destruct (String.eqb_spec a b) as [X|_]; [exfalso; apply Hn; rewrite X; cbn; tauto|] end. reflexivity. }
  rewrite L. unfold strip. rewrite lstrip_app by (intros d Hd; apply inChars_in; exact Hd). rewrite E at 1. rewrite lstrip_keep by now apply notPdc. rewrite <- E, E'. apply rstrip_keep. now apply notPdc.
Qed.

(** ** lists *)
Lemma omapM_spec {A B} (f : A -> option B) l : forall l', omapM f l = Some l' -> List.length l' = List.length l /\ forall i x, nth_error l i = Some x -> exists y, nth_error l' i = Some y /\ f x = Some y.
Proof.
  induction l as [|a r IH]; intros l' H; cbn [omapM] in H.
  - assert (l' = []) by congruence. subst. split; [reflexivity|]. intros [|i] x; discriminate.
  - destruct (f a) as [y|] eqn:E; [|discriminate]. destruct (omapM f r) as [ys|]; [|discriminate]. assert (l' = y :: ys) by congruence. subst. destruct (IH ys eq_refl) as [L I].
    split; [cbn; congruence|]. intros [|i] x Hx; cbn in Hx; [assert (a = x) by congruence; subst; exists y; now split|]. now apply I.
Qed.
Lemma setNth_spec p x l : forall l', setNth p x l = Some l' -> List.length l' = List.length l /\ nth_error l' p = Some x /\ forall q, q <> p -> nth_error l' q = nth_error l q.
Proof.
  revert p. induction l as [|a r IH]; intros [|p] l' H; cbn [setNth] in H; try discriminate.
  - assert (l' = x :: r) by congruence. subst. split; [reflexivity|]. split; [reflexivity|]. intros [|q] Hq; [congruence|reflexivity].
  - destruct (setNth p x r) as [r'|] eqn:E; [|discriminate]. assert (l' = a :: r') by congruence. subst. destruct (IH _ _ E) as (L & N & O). split; [cbn; congruence|]. split; [exact N|].
    intros [|q] Hq; [reflexivity|]. cbn. apply O. lia.
Qed.
Lemma putNames_spec names : forall j line l', putNames j names line = Some l' -> List.length l' = List.length line /\
  (forall i n, nth_error names i = Some n -> n <> "" /\ nth_error l' (2 + (j + i) * 4) = Some n) /\
  (forall q, (forall i, (i < List.length names)%nat -> q <> 2 + (j + i) * 4)%nat -> nth_error l' q = nth_error line q).
Proof.
  induction names as [|a r IH]; intros j line l' H; cbn [putNames] in H.
  - assert (l' = line) by congruence. subst. split; [reflexivity|]. split; [intros [|i] n; discriminate|reflexivity].
  - destruct (String.eqb_spec a "") as [|Ha]; [discriminate|]. destruct (setNth (2 + j * 4) a line) as [l1|] eqn:E; [|discriminate].
    destruct (setNth_spec _ _ _ _ E) as (L & N & O). destruct (IH _ _ _ H) as (L2 & N2 & O2). split; [congruence|]. split.
    + intros [|i] n Hi; cbn in Hi.
      * assert (a = n) by congruence. subst n. split; [exact Ha|]. rewrite O2; [rewrite Nat.add_0_r; exact N|]. intros i Hi2. lia.
      * destruct (N2 i n Hi) as [H1 H2]. split; [exact H1|]. replace (j + S i)%nat with (S j + i)%nat by lia. exact H2.
    + intros q Hq. rewrite O2; [apply O|].
      * specialize (Hq 0%nat). cbn in Hq. lia.
      * intros i Hi. specialize (Hq (S i)). cbn [List.length] in Hq. lia.
Qed.
Lemma nth_error_skipn {A} (l : list A) m i : nth_error (skipn m l) i = nth_error l (m + i).
Proof. revert l. induction m as [|m IH]; intros l; [reflexivity|]. destruct l as [|a l]; [cbn; destruct i; reflexivity|]. cbn. apply IH. Qed.
Lemma nth_error_firstn {A} (l : list A) m i : (i < m)%nat -> nth_error (firstn m l) i = nth_error l i.
Proof. revert l i. induction m as [|m IH]; intros l i H; [lia|]. destruct l as [|a l]; [reflexivity|]. destruct i as [|i]; [reflexivity|]. cbn. apply IH. lia. Qed.
Lemma nth_error_removelast {A} (l : list A) i x : nth_error (removelast l) i = Some x -> nth_error l i = Some x.
Proof.
  revert i. induction l as [|a l IH]; intros i H; [destruct i; discriminate|]. destruct l as [|b l]; [destruct i; discriminate|]. destruct i as [|i]; [exact H|]. cbn [removelast nth_error] in *. now apply IH.
Qed.

(** ** surfaces *)
Lemma surfaceToBc_spec props seen : forall d d', surfaceToBc props seen d = Some d' -> forall id t, lookup id d' = Some t ->
  lookup id d = Some t \/ exists line label, In line props /\ nth_error line 0 = Some id /\ nth_error line 2 = Some label /\ t = surfaceName label.
Proof.
  induction props as [|line r IH]; intros d d' H id t Hl; cbn [surfaceToBc] in H; [left; congruence|].
  destruct (nth_error line 0) as [i0|] eqn:E0; [|discriminate]. destruct (existsb (String.eqb i0) seen).
  - destruct (nth_error line 2) as [label|] eqn:E2; [|discriminate]. destruct (IH _ _ H _ _ Hl) as [Hd|(ln & lb & Hi & H0 & H2 & Ht)].
    + rewrite lookup_assign in Hd. destruct (String.eqb_spec id i0) as [->|_]; [right; exists line, label; split; [now left|]; repeat split; auto; congruence|now left].
    + right. exists ln, lb. split; [now right|auto].
  - destruct (IH _ _ H _ _ Hl) as [Hd|(ln & lb & Hi & H0 & H2 & Ht)]; [now left|]. right. exists ln, lb. split; [now right|auto].
Qed.
Lemma ptyIds_nth line ids n : ptyIds line = Some ids -> (1 <= n <= 6)%nat -> nth_error ids (n - 1) = nth_error line (2 + 2 * n) /\ List.length ids = 6%nat.
Proof.
  unfold ptyIds. intros H Hn. destruct (nth_error line 4) eqn:E1, (nth_error line 6) eqn:E2, (nth_error line 8) eqn:E3, (nth_error line 10) eqn:E4, (nth_error line 12) eqn:E5, (nth_error line 14) eqn:E6; try discriminate.
  assert (ids = [s; s0; s1; s2; s3; s4]) by congruence. subst. split; [|reflexivity].
  assert (n = 1 \/ n = 2 \/ n = 3 \/ n = 4 \/ n = 5 \/ n = 6)%nat as Q by lia. destruct Q as [-> | [-> | [-> | [-> | [-> | ->]]]]]; symmetry; assumption.
Qed.
Lemma nth_combine {A B} (l : list A) (l' : list B) i x y : nth_error l i = Some x -> nth_error l' i = Some y -> nth_error (combine l l') i = Some (x, y).
Proof. revert l' i. induction l as [|a l IH]; intros [|b l'] [|i] H1 H2; try discriminate; [cbn in *; congruence|]. cbn in *. now apply IH. Qed.

(** what a converted face was made of: its surface's label and its block's connectivity tokens *)
Lemma face_source toInt fams ptys props conns F i n pty conn : gridPro toInt fams ptys props conns = Some F -> (1 <= n <= 6)%nat -> nth_error ptys i = Some pty -> nth_error conns i = Some conn ->
  exists id line label faces f temp nb ori, nth_error pty (2 + 2 * n) = Some id /\ In line props /\ nth_error line 0 = Some id /\ nth_error line 2 = Some label /\
    nth_error F i = Some faces /\ nth_error faces (n - 1) = Some f /\ gpFaceOf toInt fams temp n = Some f /\
    nth_error conn (4 * n) = Some nb /\ nth_error conn (4 * n + 1) = Some ori /\
    nth_error (firstn 4 (skipn ((n - 1) * 4) temp)) 0 = Some (surfaceName label) /\ nth_error (firstn 4 (skipn ((n - 1) * 4) temp)) 2 = Some nb /\ nth_error (firstn 4 (skipn ((n - 1) * 4) temp)) 3 = Some ori.
Proof.
  intros H Hn Hp Hc. unfold gridPro in H. destruct (omapM ptyIds ptys) as [ids|] eqn:EI; [|discriminate]. destruct (present toInt (concat ids) []) as [seen|]; [|discriminate].
  destruct (surfaceToBc props seen []) as [d|] eqn:ED; [|discriminate]. destruct (omapM (omapM (fun i => lookup i d)) ids) as [names|] eqn:EN; [|discriminate].
  destruct (Nat.eqb_spec (List.length names) (List.length conns)) as [EL|]; [|discriminate]. cbn [negb] in H. destruct (omapM (fun nc => connRow (fst nc) (snd nc)) (combine names conns)) as [rows|] eqn:ER; [|discriminate].
  destruct (omapM_spec _ _ _ EI) as [_ I1]. destruct (I1 _ _ Hp) as (id6 & Hi6 & E6). destruct (omapM_spec _ _ _ EN) as [_ I2]. destruct (I2 _ _ Hi6) as (nm & Hnm & Enm).
  destruct (omapM_spec _ _ _ ER) as [_ I3]. destruct (I3 _ _ (nth_combine _ _ _ _ _ Hnm Hc)) as (row & Hrow & Erow). cbn [fst snd] in Erow.
  destruct (omapM_spec _ _ _ H) as [_ I4]. destruct (I4 _ _ Hrow) as (faces & Hfaces & Efaces). destruct (omapM_spec _ _ _ Efaces) as [_ I5].
  assert (Hn' : nth_error [1; 2; 3; 4; 5; 6]%nat (n - 1) = Some n).
  { assert (n = 1 \/ n = 2 \/ n = 3 \/ n = 4 \/ n = 5 \/ n = 6)%nat as Q by lia. destruct Q as [-> | [-> | [-> | [-> | [-> | ->]]]]]; reflexivity. }
  destruct (I5 _ _ Hn') as (f & Hf & Ef). destruct (ptyIds_nth _ _ _ E6 Hn) as [Eid L6].
  destruct (nth_error id6 (n - 1)) as [id|] eqn:Eid2; [|apply nth_error_None in Eid2; lia]. destruct (omapM_spec _ _ _ Enm) as [L7 I6]. destruct (I6 _ _ Eid2) as (t & Ht & Elook).
  destruct (surfaceToBc_spec _ _ _ _ ED _ _ Elook) as [Habs|(line & label & Hin & H0 & H2 & ->)]; [discriminate|].
  unfold connRow in Erow. destruct (putNames 0 nm conn) as [l|] eqn:EP; [|discriminate]. assert (row = removelast (skipn 2 l)) by congruence. subst row. destruct (putNames_spec _ _ _ _ EP) as (L8 & NP & OP).
  assert (Ef2 := Ef). unfold gpFaceOf in Ef2. cbv zeta in Ef2. set (temp := removelast (skipn 2 l)) in *.
  destruct (nth_error (firstn 4 (skipn ((n - 1) * 4) temp)) 0) as [nm0|] eqn:X0; [|discriminate]. destruct (nth_error (firstn 4 (skipn ((n - 1) * 4) temp)) 2) as [nb|] eqn:X2; [|discriminate].
  destruct (nth_error (firstn 4 (skipn ((n - 1) * 4) temp)) 3) as [ori|] eqn:X3; [|discriminate]. clear Ef2.
  assert (G : forall r y, (r < 4)%nat -> nth_error (firstn 4 (skipn ((n - 1) * 4) temp)) r = Some y -> nth_error l (2 + ((n - 1) * 4 + r)) = Some y).
  { intros r y Hr HH. rewrite nth_error_firstn in HH by exact Hr. rewrite nth_error_skipn in HH. unfold temp in HH. apply nth_error_removelast in HH. rewrite nth_error_skipn in HH. exact HH. }
  pose proof (G 0%nat _ ltac:(lia) X0) as G0. pose proof (G 2%nat _ ltac:(lia) X2) as G2. pose proof (G 3%nat _ ltac:(lia) X3) as G3.
  destruct (NP _ _ Ht) as [_ Nn]. assert (nm0 = surfaceName label). { replace (2 + ((n - 1) * 4 + 0))%nat with (2 + (0 + (n - 1)) * 4)%nat in G0 by lia. congruence. } subst nm0.
  rewrite OP in G2 by (intros j _; lia). rewrite OP in G3 by (intros j _; lia).
  replace (2 + ((n - 1) * 4 + 2))%nat with (4 * n)%nat in G2 by lia. replace (2 + ((n - 1) * 4 + 3))%nat with (4 * n + 1)%nat in G3 by lia.
  exists id, line, label, faces, f, temp, nb, ori. repeat (split; [first [assumption|reflexivity|symmetry; assumption]|]). assumption.
Qed.
Lemma validType_in t : validType t = true <-> In t validBcTypes.
Proof. unfold validType. rewrite existsb_exists. split; [intros (x & H & E); apply String.eqb_eq in E; now subst|intros H; exists t; split; [exact H|apply String.eqb_refl]]. Qed.

Lemma prefix_app x y : prefix x y = true <-> exists b, y = x ++ b.
Proof.
  revert y. induction x as [|c x IH]; intros y; [split; [intros _; now exists y|destruct y; reflexivity]|]. destruct y as [|d y]; cbn [prefix]; [split; [discriminate|intros (b & E); discriminate]|].
  destruct (ascii_dec c d) as [->|N].
  - rewrite IH. cbn [append]. split; [intros (b & ->); now exists b|intros (b & E); exists b; congruence].
  - split; [discriminate|intros (b & E)]. cbn [append] in E. congruence.
Qed.
Lemma contains_spec x y : contains x y = true <-> exists a b, y = a ++ x ++ b.
Proof.
  induction y as [|c y IH]; cbn [contains]; rewrite orb_true_iff, prefix_app.
  - split; [intros [(b & E)|H]; [now exists "", b|discriminate]|]. intros ([|d a] & b & E); [left; now exists b|discriminate].
  - rewrite IH. split.
    + intros [(b & E)|(a & b & ->)]; [now exists "", b|now exists (String c a), b].
    + intros ([|d a] & b & E); [left; now exists b|]. right. exists a, b. cbn [append] in E. congruence.
Qed.
(** Every face of a converted grid: the neighbour is GridPro's less one, absent for 0; the orientation GridPro's, absent if it has a 0; family and type are what the surface's
    label means, provided the label's name does not begin or end with one of the characters of "pdc:" *)
Theorem C129_faces_partial : forall toInt fams ptys props conns F i n pty conn, gridPro toInt fams ptys props conns = Some F -> (1 <= n <= 6)%nat -> nth_error ptys i = Some pty -> nth_error conns i = Some conn ->
  exists faces f nb ori m, nth_error F i = Some faces /\ nth_error faces (n - 1) = Some f /\ nth_error conn (4 * n) = Some nb /\ toInt nb = Some m /\ nth_error conn (4 * n + 1) = Some ori /\
    gpNbr f = (if (m =? 0)%Z then None else Some (m - 1)%Z) /\ ((exists a b, ori = a ++ "0" ++ b) -> gpOri f = None) /\ (~ (exists a b, ori = a ++ "0" ++ b) -> gpOri f = Some ori) /\
    exists id line label, nth_error pty (2 + 2 * n) = Some id /\ In line props /\ nth_error line 0 = Some id /\ nth_error line 2 = Some label /\
      (In label ["pdc:INTERBLK"; "pdc:WALL"; "pdc:user8"] /\ lookup (surfaceName label) fams = None \/ (exists name, label = "pdc:" ++ name /\ endsSafe name /\ ~ In label ["pdc:INTERBLK"; "pdc:WALL"; "pdc:user8"]) ->
       means fams label (gpFam' f) (gpType f)).
Proof.
  intros toInt fams ptys props conns F i n pty conn H Hn Hp Hc.
  destruct (face_source _ _ _ _ _ _ _ _ _ _ H Hn Hp Hc) as (id & line & label & faces & f & temp & nb & ori & Hid & Hin & H0 & H2 & HF & Hf & Ef & Hnb & Hori & X0 & X2 & X3).
  unfold gpFaceOf in Ef. cbv zeta in Ef. rewrite X0, X2, X3 in Ef.
  destruct (match lookup (surfaceName label) fams with Some _ => _ | None => _ end) as [[[fam t] v]|] eqn:EB; [|discriminate]. destruct (toInt nb) as [m|] eqn:Em; [|discriminate].
  assert (f = mkGp fam t (if (m =? 0)%Z then None else Some (m - 1)%Z) (if contains "0" ori then None else Some ori) v) by congruence. subst f.
  exists faces, (mkGp fam t (if (m =? 0)%Z then None else Some (m - 1)%Z) (if contains "0" ori then None else Some ori) v), nb, ori, m.
  repeat (split; [first [assumption|reflexivity|cbn [gpOri]; intros X; destruct (contains "0" ori) eqn:E0; [reflexivity|exfalso; apply contains_spec in X; congruence]|cbn [gpOri]; intros X; destruct (contains "0" ori) eqn:E0; [exfalso; now apply X, contains_spec|reflexivity]]|]). exists id, line, label. repeat (split; [assumption|]). cbn [gpFam' gpType].
  intros [[HL HN]|(name & El & Hs & HL)].
  - rewrite HN in EB. destruct HL as [<-|[<-|[<-|[]]]].
    + change (Some (@None string, "b0", @None (R * (R * R * R))) = Some (fam, t, v)) in EB. assert (fam = None /\ t = "b0") as [-> ->] by (split; congruence). left. auto.
    + change (Some (@None string, "adiabaticNoSlipWall", @None (R * (R * R * R))) = Some (fam, t, v)) in EB. assert (fam = None /\ t = "adiabaticNoSlipWall") as [-> ->] by (split; congruence). right. left. auto.
    + change (Some (@None string, "adiabaticSlipWall", @None (R * (R * R * R))) = Some (fam, t, v)) in EB. assert (fam = None /\ t = "adiabaticSlipWall") as [-> ->] by (split; congruence). right. right. left. auto.
  - subst label. rewrite surfaceName_safe in EB by assumption. right. right. right. split; [exact HL|]. exists name. split; [reflexivity|]. destruct (lookup name fams) as [fm|] eqn:EF.
    + left. destruct (validType (fmType fm)); [|discriminate]. exists fm. split; [reflexivity|]. split; congruence.
    + right. destruct (String.eqb_spec name "PERIODIC") as [->|Hne].
      * left. split; [reflexivity|]. split; [reflexivity|]. destruct (find _ fams) as [[key fm]|] eqn:EK; [|discriminate]. destruct (validType _) eqn:EV; [|discriminate]. destruct (fmVals fm) as [w|]; [|discriminate].
        assert (fam = Some key /\ t = (fmType fm ++ "Low")%string) as [-> ->] by (split; congruence).
        clear - EK. induction fams as [|a r IH]; [discriminate|]. cbn [find] in EK. destruct (prefix "periodic" (fst a)) eqn:EP.
        -- assert (a = (key, fm)) by congruence. subst a. exists [], key, fm, r. split; [reflexivity|]. split; [exact EP|]. split; [intros k []|]. split; reflexivity.
        -- destruct (IH EK) as (b & k & f & af & E1 & E2 & E3 & E4 & E5). exists (a :: b), k, f, af. split; [cbn; congruence|]. split; [exact E2|]. split; [intros x [<-|Hx]; [exact EP|now apply E3]|]. split; [exact E4|exact E5].
      * right. split; [reflexivity|]. split; [exact Hne|]. destruct (validType name) eqn:EV; [|discriminate]. split; [now apply validType_in|]. split; congruence.
Qed.

(** ** labels that are mangled *)
(** two families "inlet" and "pinlet": a surface labelled "pdc:pinlet" gets family "inlet" *)
Definition exInt (s : string) : option Z := match s with "0" => Some 0%Z | "1" => Some 1%Z | "2" => Some 2%Z | "3" => Some 3%Z | _ => None end.
Definition exFams : list (string * gpFam) := [("inlet", mkFam "constantVelocitySubsonicInlet" None); ("pinlet", mkFam "stagnationSubsonicInlet" None); ("out", mkFam "supersonicExit" None)].
Definition exPty : list string := ["B"; "1"; "x"; "x"; "1"; "x"; "2"; "x"; "1"; "x"; "1"; "x"; "1"; "x"; "1"; "end"].
Definition exConn (nb : string) : list string := ["B"; "1"; "f"; "x"; "0"; "000"; "f"; "x"; nb; "123"; "f"; "x"; "0"; "000"; "f"; "x"; "0"; "000"; "f"; "x"; "0"; "000"; "f"; "x"; "0"; "000"; "end"].
Definition exProps (l : string) : list (list string) := [["1"; "x"; l]; ["2"; "x"; "pdc:INTERBLK"]; ["3"; "x"; "pdc:unused"]].
Definition firstFace (F : option (list (list gpFace))) : option (option string * string) :=
  match F with Some ((f :: _) :: _) => Some (gpFam' f, gpType f) | _ => None end.
Theorem C129_stripped_label_refuted :
  firstFace (gridPro exInt exFams [exPty] (exProps "pdc:pinlet") [exConn "3"]) = Some (Some "inlet", "constantVelocitySubsonicInlet") /\
  (forall fam t, means exFams "pdc:pinlet" fam t -> fam = Some "pinlet" /\ t = "stagnationSubsonicInlet").
Proof.
  split; [reflexivity|]. intros fam t [(H & _)|[(H & _)|[(H & _)|(_ & name & E & Hm)]]]; try discriminate.
  assert (name = "pinlet"). { cbn [append] in E. congruence. } subst name.
  destruct Hm as [(f & Hf & -> & ->)|[(Hl & _)|(Hl & _)]]; [|discriminate|discriminate]. cbn in Hf. assert (f = mkFam "stagnationSubsonicInlet" None) by congruence. subst f. split; reflexivity.
Qed.
(** a family named "cold" is never found: the label becomes "ol", which is no boundary type, and the conversion stops *)
Theorem C129_lost_label_refuted : forall v, lookup "cold" [("cold", v)] = Some v /\ gridPro exInt [("cold", v)] [exPty] (exProps "pdc:cold") [exConn "3"] = None.
Proof. intros v. split; reflexivity. Qed.
(** the hypotheses of C129_faces_partial are met: a block whose face 1 is an "inlet", and whose face 2 joins block 3 (neighbour 2) *)
Example C129_nonvacuous : exists F faces f1 f2, gridPro exInt exFams [exPty] (exProps "pdc:inlet") [exConn "3"] = Some F /\ nth_error F 0 = Some faces /\
  nth_error faces 0 = Some f1 /\ gpFam' f1 = Some "inlet" /\ gpType f1 = "constantVelocitySubsonicInlet" /\ gpNbr f1 = None /\ gpOri f1 = None /\
  nth_error faces 1 = Some f2 /\ gpFam' f2 = None /\ gpType f2 = "b0" /\ gpNbr f2 = Some 2%Z /\ gpOri f2 = Some "123" /\
  endsSafe "inlet" /\ ~ In "pdc:inlet" ["pdc:INTERBLK"; "pdc:WALL"; "pdc:user8"].
Proof.
  eexists. eexists. eexists. eexists. split; [reflexivity|]. split; [reflexivity|]. repeat (split; [reflexivity|]). split.
  - split; [exists "i"%char, "nlet"|exists "inle", "t"%char]; (split; [reflexivity|]); cbn; intuition discriminate.
  - cbn. intuition discriminate.
Qed.

(** ** C130: the two sides of a translational periodicity *)
Open Scope R_scope.
Lemma close1_true a b : close1 a b = true <-> Rabs (a - b) <= / 10 ^ 8 + / 10 ^ 5 * Rabs b.
Proof. unfold close1. destruct (Rle_dec _ _); split; intros; congruence || auto; contradiction. Qed.
Lemma tol_pos b : 0 < / 10 ^ 8 + / 10 ^ 5 * Rabs b.
Proof. assert (0 < / 10 ^ 8) by (apply Rinv_0_lt_compat, pow_lt; lra). assert (0 < / 10 ^ 5) by (apply Rinv_0_lt_compat, pow_lt; lra). pose proof (Rabs_pos b). nra. Qed.
Lemma close1_refl a : close1 a a = true.
Proof. apply close1_true. replace (a - a) with 0 by lra. rewrite Rabs_R0. left. apply tol_pos. Qed.
Lemma allclose_refl a : allclose a a = true.
Proof. destruct a as [[x y] z]. cbn. now rewrite !close1_refl. Qed.
(** component j of a vector *)
Definition comp (a : p3) (j : Z) : R := let '(x, y, z) := a in match j with 0%Z => x | 1%Z => y | _ => z end.
Lemma allclose_comp a b j : allclose a b = true -> close1 (comp a j) (comp b j) = true.
Proof.
  destruct a as [[x y] z], b as [[u v] w]. cbn. intros H. apply andb_prop in H. destruct H as [H H3]. apply andb_prop in H. destruct H as [H1 H2]. destruct j as [|[p|p|]|p]; assumption.
Qed.
(** the two centres differ by [span] along the unit axis.  If twice the span exceeds the comparison's tolerance at one of the components, the lower face becomes Low and the upper High *)
Theorem C130_sides_partial : forall span axis lowC highC j, highC = add3 lowC (scale3 span (unit3 axis)) ->
  2 * Rabs (span * comp (unit3 axis) j) > / 10 ^ 8 + / 10 ^ 5 * Rabs (comp lowC j) ->
  sideOf "periodicTransLow" span axis lowC highC = Some "periodicTransLow"%string /\ sideOf "periodicTransLow" span axis highC lowC = Some "periodicTransHigh"%string.
Proof.
  intros span axis lowC highC j -> H. unfold sideOf. rewrite String.eqb_refl. cbv zeta. set (d := scale3 span (unit3 axis)).
  split; [now rewrite allclose_refl|]. destruct (allclose (add3 (add3 lowC d) d) lowC) eqn:E.
  - exfalso. apply (allclose_comp _ _ j) in E. apply close1_true in E.
    assert (Ec : comp (add3 (add3 lowC d) d) j - comp lowC j = 2 * (span * comp (unit3 axis) j)).
    { unfold d. destruct lowC as [[x y] z], (unit3 axis) as [[u v] w]. destruct j as [|[p|p|]|p]; cbn; lra. }
    rewrite Ec, Rabs_mult, (Rabs_right 2) in E by lra. lra.
  - replace (add3 (add3 lowC d) (scale3 (-1) d)) with lowC; [now rewrite allclose_refl|].
    destruct lowC as [[x y] z], d as [[u v] w]. cbn. f_equal; [f_equal|]; lra.
Qed.
(** whichever way the comparison goes, a side is only given when one shift of the face brings it to within the tolerance of the other *)
Theorem C130_sound : forall t span axis mine theirs s, sideOf t span axis mine theirs = Some s ->
  t = "periodicTransLow"%string /\
  ((s = "periodicTransLow"%string /\ forall j, Rabs (comp (add3 mine (scale3 span (unit3 axis))) j - comp theirs j) <= / 10 ^ 8 + / 10 ^ 5 * Rabs (comp theirs j)) \/
   (s = "periodicTransHigh"%string /\ forall j, Rabs (comp (add3 mine (scale3 (- span) (unit3 axis))) j - comp theirs j) <= / 10 ^ 8 + / 10 ^ 5 * Rabs (comp theirs j))).
Proof.
  intros t span axis mine theirs s H. unfold sideOf in H. destruct (String.eqb_spec t "periodicTransLow") as [->|]; [|discriminate]. split; [reflexivity|]. cbv zeta in H.
  destruct (allclose (add3 mine (scale3 span (unit3 axis))) theirs) eqn:E1.
  - left. split; [congruence|]. intros j. now apply close1_true, allclose_comp.
  - destruct (allclose _ theirs) eqn:E2 in H; [|discriminate]. right. split; [congruence|]. intros j. apply close1_true, allclose_comp.
    replace (scale3 (- span) (unit3 axis)) with (scale3 (-1) (scale3 span (unit3 axis))); [exact E2|]. destruct (unit3 axis) as [[u v] w]. cbn. f_equal; [f_equal|]; lra.
Qed.
(** a span of 1e-9 m, along x at the origin: both sides are declared Low *)
Theorem C130_small_span_refuted : sideOf "periodicTransLow" (/ 10 ^ 9) (1, 0, 0) (0, 0, 0) (/ 10 ^ 9, 0, 0) = Some "periodicTransLow"%string /\ sideOf "periodicTransLow" (/ 10 ^ 9) (1, 0, 0) (/ 10 ^ 9, 0, 0) (0, 0, 0) = Some "periodicTransLow"%string.
Proof.
  assert (U : scale3 (/ 10 ^ 9) (unit3 (1, 0, 0)) = (/ 10 ^ 9, 0, 0)).
  { unfold unit3. replace (1 * 1 + 0 * 0 + 0 * 0) with 1 by lra. rewrite sqrt_1, Rinv_1. cbn [scale3]. f_equal; [f_equal|]; ring. }
  unfold sideOf. rewrite String.eqb_refl. cbv zeta. rewrite U. cbn [add3 allclose].
  assert (E0 : close1 (0 + 0) 0 = true) by (replace (0 + 0) with 0 by lra; apply close1_refl).
  rewrite !E0. assert (E1 : close1 (0 + / 10 ^ 9) (/ 10 ^ 9) = true) by (rewrite Rplus_0_l; apply close1_refl). rewrite E1.
  assert (E2 : close1 (/ 10 ^ 9 + / 10 ^ 9) 0 = true). { apply close1_true. rewrite Rabs_R0, Rabs_right; simpl pow; lra. } rewrite E2. split; reflexivity.
Qed.
(** even a metre: at 2e5 m from the origin *)
Theorem C130_far_refuted : sideOf "periodicTransLow" 1 (1, 0, 0) (300000, 0, 0) (300001, 0, 0) = Some "periodicTransLow"%string /\ sideOf "periodicTransLow" 1 (1, 0, 0) (300001, 0, 0) (300000, 0, 0) = Some "periodicTransLow"%string.
Proof.
  assert (U : scale3 1 (unit3 (1, 0, 0)) = (1, 0, 0)).
  { unfold unit3. replace (1 * 1 + 0 * 0 + 0 * 0) with 1 by lra. rewrite sqrt_1, Rinv_1. cbn [scale3]. f_equal; [f_equal|]; ring. }
  unfold sideOf. rewrite String.eqb_refl. cbv zeta. rewrite U. cbn [add3 allclose].
  assert (E0 : close1 (0 + 0) 0 = true) by (replace (0 + 0) with 0 by lra; apply close1_refl). rewrite !E0.
  assert (E1 : close1 (300000 + 1) 300001 = true) by (replace (300000 + 1) with 300001 by lra; apply close1_refl). rewrite E1.
  assert (E2 : close1 (300001 + 1) 300000 = true). { apply close1_true. rewrite !Rabs_right by lra. simpl pow. lra. } rewrite E2. split; reflexivity.
Qed.
(** a rotational periodicity is never converted, whatever the grid *)
Theorem C130_rotational_refuted : forall b nb n f, gpType f = "periodicRotLow"%string -> gpSide b nb n f = None.
Proof.
  intros b nb n f E. unfold gpSide. rewrite E. change (prefix "periodic" "periodicRotLow") with true. cbv iota. destruct (gpVals f) as [[s a]|], (gpOri f) as [o|]; try reflexivity.
  destruct (neighborNface n o); [|reflexivity]. destruct (extractFace b n); [|reflexivity]. destruct (extractFace nb z); reflexivity.
Qed.
(** only the first periodic family serves: the span and the axis of a second one are never used *)
Theorem C130_two_families_refuted : forall toInt fams temp n f before key fm after, fams = (before ++ (key, fm) :: after)%list -> prefix "periodic" key = true -> (forall k, In k before -> prefix "periodic" (fst k) = false) ->
  lookup "PERIODIC" fams = None -> nth_error (firstn 4 (skipn ((n - 1) * 4) temp)) 0 = Some "PERIODIC"%string -> gpFaceOf toInt fams temp n = Some f -> gpFam' f = Some key /\ gpVals f = fmVals fm.
Proof.
  intros toInt fams temp n f before key fm after HF Hk Hb HL H0 H. unfold gpFaceOf in H. cbv zeta in H. rewrite H0 in H.
  destruct (nth_error _ 2) as [nb|]; [|discriminate]. destruct (nth_error _ 3) as [ori|]; [|discriminate]. rewrite HL in H. rewrite String.eqb_refl in H.
  assert (EF : find (fun kf => prefix "periodic" (fst kf)) fams = Some (key, fm)).
  { subst fams. clear - Hk Hb. induction before as [|a r IH]; cbn [app find fst]; [now rewrite Hk|]. rewrite (Hb a) by (now left). apply IH. intros k Hi. apply Hb. now right. }
  rewrite EF in H. destruct (validType _); [|discriminate]. destruct (fmVals fm) as [v|] eqn:EV; [|discriminate]. destruct (toInt nb) as [m|]; [|discriminate].
  assert (f = mkGp (Some key) (fmType fm ++ "Low")%string (if (m =? 0)%Z then None else Some (m - 1)%Z) (if contains "0" ori then None else Some ori) (Some v)) by congruence. subst f. split; reflexivity.
Qed.
(** ** from the grid's points *)
(** all points of a face *)
Definition points (f : farr) : list p3 := flat_map (fun u => map (fun v => aget f (Z.of_nat u) (Z.of_nat v)) (seq 0 (Z.to_nat (snd (ash f))))) (seq 0 (Z.to_nat (fst (ash f)))).
Lemma add3_comm a b : add3 a b = add3 b a. Proof. destruct a as [[x y] z], b as [[u v] w]. cbn. f_equal; [f_equal|]; lra. Qed.
Lemma add3_assoc a b c : add3 (add3 a b) c = add3 a (add3 b c). Proof. destruct a as [[x y] z], b as [[u v] w], c as [[r s] t]. cbn. f_equal; [f_equal|]; lra. Qed.
Lemma fold_points_inner (g : nat -> p3) l : forall s, fold_left (fun s v => add3 s (g v)) l s = fold_left add3 (map g l) s.
Proof. induction l as [|a l IH]; intros s; [reflexivity|]. cbn. apply IH. Qed.
Lemma fold_points_outer (g : nat -> list p3) l : forall s, fold_left (fun s u => fold_left add3 (g u) s) l s = fold_left add3 (flat_map g l) s.
Proof. induction l as [|a l IH]; intros s; [reflexivity|]. cbn [fold_left flat_map]. rewrite fold_left_app. apply IH. Qed.
Lemma faceSum_points f : faceSum f = fold_left add3 (points f) (0, 0, 0).
Proof.
  unfold faceSum, points. rewrite <- fold_points_outer. generalize (0, 0, 0). induction (seq 0 (Z.to_nat (fst (ash f)))) as [|u l IH]; intros s; [reflexivity|]. cbn [fold_left]. rewrite fold_points_inner. apply IH.
Qed.
Lemma fold_add_perm l l' : Permutation l l' -> forall s, fold_left add3 l s = fold_left add3 l' s.
Proof.
  induction 1 as [|x l l' _ IH|x y l|l l' l'' _ IH1 _ IH2]; intros s; cbn; auto; [|now rewrite IH1].
  f_equal. rewrite !add3_assoc. f_equal. apply add3_comm.
Qed.
Lemma fold_add_shift d l : forall s, fold_left add3 (map (add3 d) l) s = add3 (fold_left add3 l s) (scale3 (INR (List.length l)) d).
Proof.
  induction l as [|a l IH]; intros s; cbn [map fold_left].
  - cbn [List.length INR]. destruct s as [[x y] z], d as [[u v] w]. cbn. f_equal; [f_equal|]; lra.
  - rewrite IH. change (List.length (a :: l)) with (S (List.length l)). rewrite S_INR.
    assert (E : fold_left add3 l (add3 s (add3 d a)) = add3 (fold_left add3 l (add3 s a)) d).
    { replace (add3 s (add3 d a)) with (add3 (add3 s a) d). 2: { rewrite (add3_comm d a), add3_assoc. reflexivity. }
      generalize (add3 s a). clear. induction l as [|b l IH]; intros s; [reflexivity|]. cbn [fold_left]. rewrite <- IH. f_equal. rewrite !add3_assoc. f_equal. apply add3_comm. }
    rewrite E. rewrite add3_assoc. f_equal. destruct d as [[u v] w]. cbn [scale3 add3]. f_equal; [f_equal|]; ring.
Qed.
Lemma points_length f : (0 <= fst (ash f))%Z -> (0 <= snd (ash f))%Z -> INR (List.length (points f)) = IZR (fst (ash f) * snd (ash f)).
Proof.
  intros H1 H2. unfold points. assert (G : forall l, List.length (flat_map (fun u => map (fun v => aget f (Z.of_nat u) (Z.of_nat v)) (seq 0 (Z.to_nat (snd (ash f))))) l) = (List.length l * Z.to_nat (snd (ash f)))%nat).
  { induction l as [|a l IH]; [reflexivity|]. cbn [flat_map List.length Nat.mul]. rewrite app_length, map_length, seq_length, IH. reflexivity. }
  rewrite G, seq_length, mult_INR, !INR_IZR_INZ, !Z2Nat.id by assumption. now rewrite mult_IZR.
Qed.
(** a face whose points are another's, shifted by [d] and taken in any order: its centre is shifted by [d] *)
Theorem mean_shift : forall A B d, (0 < fst (ash A))%Z -> (0 < snd (ash A))%Z -> (0 < fst (ash B))%Z -> (0 < snd (ash B))%Z -> Permutation (points B) (map (add3 d) (points A)) -> faceMean B = add3 (faceMean A) d.
Proof.
  intros A B d H1 H2 H3 H4 P. unfold faceMean. pose proof (Permutation_length P) as L. rewrite map_length in L. rewrite !faceSum_points, (fold_add_perm _ _ P), fold_add_shift.
  rewrite <- (points_length A), <- (points_length B), L by lia. assert (N : INR (List.length (points A)) <> 0). { rewrite points_length by lia. apply not_0_IZR. nia. }
  set (S0 := fold_left add3 (points A) (0, 0, 0)). destruct S0 as [[x y] z], d as [[u v] w]. cbn [scale3 add3]. f_equal; [f_equal|]; field; exact N.
Qed.
(** two blocks, each with a face converted from the same translational family, joined to each other: if the points of the second face are those of the first moved by the span along the axis,
    in whatever order, the first face is Low and the second High (the span being clear of the comparison's tolerance) *)
Theorem C130_grid_partial : forall b1 b2 n1 n2 f1 f2 o1 o2 span axis A B j, gpType f1 = "periodicTransLow"%string -> gpType f2 = "periodicTransLow"%string ->
  gpVals f1 = Some (span, axis) -> gpVals f2 = Some (span, axis) -> gpOri f1 = Some o1 -> gpOri f2 = Some o2 -> neighborNface n1 o1 = Some n2 -> neighborNface n2 o2 = Some n1 ->
  extractFace b1 n1 = Some A -> extractFace b2 n2 = Some B -> (0 < fst (ash A))%Z -> (0 < snd (ash A))%Z -> (0 < fst (ash B))%Z -> (0 < snd (ash B))%Z ->
  Permutation (points B) (map (add3 (scale3 span (unit3 axis))) (points A)) ->
  2 * Rabs (span * comp (unit3 axis) j) > / 10 ^ 8 + / 10 ^ 5 * Rabs (comp (faceMean A) j) ->
  gpSide b1 b2 n1 f1 = Some "periodicTransLow"%string /\ gpSide b2 b1 n2 f2 = Some "periodicTransHigh"%string.
Proof.
  intros b1 b2 n1 n2 f1 f2 o1 o2 span axis A B j T1 T2 V1 V2 O1 O2 N1 N2 EA EB Ha1 Ha2 Hb1 Hb2 P H.
  pose proof (mean_shift _ _ _ Ha1 Ha2 Hb1 Hb2 P) as M. destruct (C130_sides_partial span axis _ _ j M H) as [L U].
  unfold gpSide. rewrite T1, T2. change (prefix "periodic" "periodicTransLow") with true. cbv iota. rewrite V1, V2, O1, O2, N1, N2, EA, EB. split; [exact L|exact U].
Qed.
(** C130_sides_partial's hypotheses are met: faces one metre apart along a non-unit axis *)
Example C130_nonvacuous : (1 / 2, 0, 1) = add3 (1 / 2, 0, 0) (scale3 1 (unit3 (0, 0, 2))) /\ 2 * Rabs (1 * comp (unit3 (0, 0, 2)) 2) > / 10 ^ 8 + / 10 ^ 5 * Rabs (comp (1 / 2, 0, 0) 2).
Proof.
  assert (U : unit3 (0, 0, 2) = (0, 0, 1)).
  { unfold unit3. replace (0 * 0 + 0 * 0 + 2 * 2) with (2 * 2) by lra. rewrite sqrt_square by lra. cbn [scale3]. f_equal; [f_equal|]; field. }
  rewrite U. split; [cbn; f_equal; [f_equal|]; lra|]. cbn [comp]. rewrite Rabs_R0, Rabs_right by lra. simpl pow. lra.
Qed.
Print Assumptions C129_faces_partial.
Print Assumptions C130_sides_partial.
Print Assumptions C130_sound.
