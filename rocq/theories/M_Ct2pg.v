(** The code generator utilities/ct2pgChem.py: from a Cantera mechanism to the C++ statements of a chemistry kernel, and what those
    statements compute.  The generator is modelled as a function to a small C++ syntax (expressions, assignments); the numbers that the
    f-strings print are read back exactly (repr of a float round-trips).  Exact reals; an operation whose C++ result is NaN, infinite or
    complex is None.  Definitions only. *)
From Coq Require Import Reals ZArith List Bool.
From Verif Require Import M_Halo.
Import ListNotations.
Open Scope R_scope.

(** what the utility takes from a cantera Reaction: ct2pgChem.py:77-109 (rate.pre_exponential_factor, temperature_exponent,
    activation_energy / Ru) *)
Record arrh := mkArrh { aA : R; aM : R; aE : R }.
(** r.reaction_type with r.third_body.efficiency and rate.falloff_coeffs: ct2pgChem.py:84-109, 343-402 *)
Inductive rtype :=
  | RArrhenius
  | RThree (eff : Z -> R)
  | RLindemann (eff : Z -> R) (low : arrh)
  | RTroe (eff : Z -> R) (low : arrh) (coeffs : list R)
  | ROther.
Record ctReac := mkCt { ctF : Z -> R; ctB : Z -> R; ctRate : arrh; ctType : rtype; ctRev : bool }.

(** the C++ expressions and statements that are written *)
Inductive cvar := VcTBC | Vk_f | VdG | VK_c | VFcent | Vpmod | VPr | Vk0 | VA | Vf1 | VF_pdr | VC | VN | Vq_f | Vq_b | VlogT | VTinv | VprefRuT | VT.
Scheme Equality for cvar.
Inductive cx :=
  | Num (r : R) | Var (v : cvar) | Cs (n : Z) | Gbs (n : Z) | Qx (n : Z) | Mw (n : Z)
  | Neg (a : cx) | Add (a b : cx) | Sub (a b : cx) | Mul (a b : cx) | Div (a b : cx) | Ex (a : cx) | Lg (a : cx) | Lg10 (a : cx) | Pw (a b : cx).
Inductive stmt := Set_ (v : cvar) (e : cx) | MulSet (v : cvar) (e : cx) | SetQ (n : Z) (e : cx) | SetD (n : Z) (e : cx).

(** ** What the C++ computes *)
Record inputs := mkIn { inCs : Z -> R; inG : Z -> R; inMw : Z -> R }.
Record env := mkEnv { vars : cvar -> option R; arrQ : Z -> option R; arrD : Z -> option R }.
Definition bind2 (f : R -> R -> option R) (a b : option R) : option R := match a, b with Some x, Some y => f x y | _, _ => None end.
(** pow of <math.h>, for a non-negative base *)
Definition powC (x y : R) : option R :=
  if Rlt_dec 0 x then Some (Rpower x y) else if Req_EM_T x 0 then (if Rlt_dec 0 y then Some 0 else if Req_EM_T y 0 then Some 1 else None) else None.
Fixpoint eval (s : inputs) (v : env) (e : cx) : option R :=
  match e with
  | Num r => Some r
  | Var x => vars v x
  | Cs n => Some (inCs s n)
  | Gbs n => Some (inG s n)
  | Mw n => Some (inMw s n)
  | Qx n => arrQ v n
  | Neg a => match eval s v a with Some x => Some (- x) | None => None end
  | Add a b => bind2 (fun x y => Some (x + y)) (eval s v a) (eval s v b)
  | Sub a b => bind2 (fun x y => Some (x - y)) (eval s v a) (eval s v b)
  | Mul a b => bind2 (fun x y => Some (x * y)) (eval s v a) (eval s v b)
  | Div a b => bind2 (fun x y => if Req_EM_T y 0 then None else Some (x / y)) (eval s v a) (eval s v b)
  | Ex a => match eval s v a with Some x => Some (exp x) | None => None end
  | Lg a => match eval s v a with Some x => if Rlt_dec 0 x then Some (ln x) else None | None => None end
  | Lg10 a => match eval s v a with Some x => if Rlt_dec 0 x then Some (ln x / ln 10) else None | None => None end
  | Pw a b => bind2 powC (eval s v a) (eval s v b)
  end.
Definition setVar (v : env) (x : cvar) (r : R) : env := mkEnv (fun y => if cvar_beq y x then Some r else vars v y) (arrQ v) (arrD v).
Definition exec1 (s : inputs) (v : env) (c : stmt) : option env :=
  match c with
  | Set_ x e => match eval s v e with Some r => Some (setVar v x r) | None => None end
  | MulSet x e => match vars v x, eval s v e with Some a, Some r => Some (setVar v x (a * r)) | _, _ => None end
  | SetQ n e => match eval s v e with Some r => Some (mkEnv (vars v) (fun m => if (m =? n)%Z then Some r else arrQ v m) (arrD v)) | None => None end
  | SetD n e => match eval s v e with Some r => Some (mkEnv (vars v) (arrQ v) (fun m => if (m =? n)%Z then Some r else arrD v m)) | None => None end
  end.
Fixpoint exec (s : inputs) (v : env) (p : list stmt) : option env :=
  match p with [] => Some v | c :: p' => match exec1 s v c with Some v' => exec s v' p' | None => None end end.

(** ** The generator *)
(** int(val) truncates towards zero; intOrFloat (ct2pgChem.py:39-45) *)
Definition trunc (x : R) : Z := if Rle_dec 0 x then Int_part x else (- Int_part (- x))%Z.
Inductive pynum := PInt (z : Z) | PFloat (x : R).
Definition intOrFloat (x : R) : pynum := if Rlt_dec (/ 10 ^ 16) (Rabs (x - IZR (trunc x))) then PFloat x else PInt (trunc x).
Definition pyval (n : pynum) : R := match n with PInt z => IZR z | PFloat x => x end.
(** "{ m:+}*logT" after an expression: the sign is printed *)
Definition plusTerm (a : cx) (m : R) (b : cx) : cx := if Rle_dec 0 m then Add a (Mul (Num m) b) else Sub a (Mul (Num (- m)) b).
Fixpoint times (a : cx) (b : cx) (n : nat) : cx := match n with O => a | S n' => times (Mul a b) b n' end.
(** rateConstString (ct2pgChem.py:48-66) *)
Definition rateConst (A : R) (m : pynum) (Ea : R) : cx :=
  if Req_EM_T (pyval m) 0 then
    if Req_EM_T Ea 0 then Num A
    else Ex (Sub (Lg (Num A)) (Mul (Num Ea) (Var VTinv)))
  else if Req_EM_T Ea 0 then
    match m with
    | PFloat x => Ex (plusTerm (Lg (Num A)) x (Var VlogT))
    | PInt z => if (z <? 0)%Z then times (Num A) (Var VTinv) (Z.to_nat (- z)) else times (Num A) (Var VT) (Z.to_nat z)
    end
  else Ex (Sub (plusTerm (Lg (Num A)) (pyval m) (Var VlogT)) (Mul (Num Ea) (Var VTinv))).
Definition rateConstOf (a : arrh) : cx := rateConst (aA a) (intOrFloat (aM a)) (aE a).

(** a piece of text " + x", " - x", "+2.0*x" or "x" *)
Inductive lead := LPlus | LMinus | LNone.
Definition item := (lead * cx)%type.
(** the pieces of dG and of the source terms: s == 1, s == -1, s != 0 (ct2pgChem.py:304-310, 455-462) *)
Definition signedItem (s : R) (x : cx) : list item :=
  if Req_EM_T s 1 then [(LPlus, x)] else if Req_EM_T s (-1) then [(LMinus, x)]
  else if Req_EM_T s 0 then [] else if Rle_dec 0 s then [(LPlus, Mul (Num s) x)] else [(LMinus, Mul (Num (- s)) x)].
(** outString[0] = outString[0].replace("+", ""): IndexError on an empty list *)
Definition dropPlus (l : list item) : option (list item) :=
  match l with [] => None | (LPlus, x) :: l' => Some ((LNone, x) :: l') | _ => Some l end.
(** how the compiler reads the pieces written one after the other *)
Fixpoint readMore (a : cx) (l : list item) : option cx :=
  match l with
  | [] => Some a
  | (LPlus, x) :: l' => readMore (Add a x) l'
  | (LMinus, x) :: l' => readMore (Sub a x) l'
  | (LNone, _) :: _ => None
  end.
Definition readSum (l : list item) : option cx :=
  match l with [] => None | (LMinus, x) :: l' => readMore (Neg x) l' | (_, x) :: l' => readMore x l' end.
Definition sumText (l : list item) : option cx := match dropPlus l with Some l' => readSum l' | None => None end.

(** dG (ct2pgChem.py:302-316) *)
Definition dGText (ns : Z) (r : ctReac) : option cx :=
  sumText (flat_map (fun j => signedItem (ctB r j - ctF r j) (Gbs j)) (zrange 0 ns)).
Definition sumR (ns : Z) (f : Z -> R) : R := fold_left (fun s j => s + f j) (zrange 0 ns) 0.
(** K_c (ct2pgChem.py:318-327) *)
Definition kcText (ns : Z) (r : ctReac) : cx :=
  let n := sumR ns (fun j => ctB r j - ctF r j) in
  if Req_EM_T n 0 then Ex (Neg (Var VdG))
  else if Req_EM_T n 1 then Mul (Var VprefRuT) (Ex (Neg (Var VdG)))
  else if Req_EM_T n (-1) then Div (Ex (Neg (Var VdG))) (Var VprefRuT)
  else Mul (Pw (Var VprefRuT) (Num n)) (Ex (Neg (Var VdG))).
Definition effOf (t : rtype) (j : Z) : R := match t with RThree e | RLindemann e _ | RTroe e _ _ => e j | _ => 0 end.
(** cTBC, written only if the efficiencies sum to something positive (ct2pgChem.py:334-348) *)
Definition tbcText (ns : Z) (t : rtype) : option (list stmt) :=
  if Rlt_dec 0 (sumR ns (effOf t)) then
    match sumText (flat_map (fun j => let e := effOf t j in
                     if Rlt_dec 0 e then if Req_EM_T e 1 then [(LPlus, Cs j)] else [(LPlus, Mul (Num e) (Cs j))] else []) (zrange 0 ns)) with
    | Some e => Some [Set_ VcTBC e]
    | None => None
    end
  else Some [].
(** Fcent, three or four parameters (ct2pgChem.py:368-381) *)
Definition fcentText (c : list R) : option cx :=
  match nth_error c 0, nth_error c 1, nth_error c 2 with
  | Some alpha, Some Tsss, Some Ts =>
      let three := Add (Mul (Sub (Num 1) (Num alpha)) (Ex (Div (Neg (Var VT)) (Num Tsss)))) (Mul (Num alpha) (Ex (Div (Neg (Var VT)) (Num Ts)))) in
      if Req_EM_T (last c 0) 0 then Some three
      else match nth_error c 3 with Some Tss => Some (Add three (Ex (Mul (Neg (Num Tss)) (Var VTinv)))) | None => None end
  | _, _, _ => None
  end.
(** the fall-off statements (ct2pgChem.py:350-412) *)
Definition falloffText (t : rtype) : option (list stmt) :=
  match t with
  | RArrhenius => Some []
  | RThree _ => Some [MulSet Vk_f (Var VcTBC)]
  | RLindemann _ low =>
      Some [Set_ VFcent (Num 1); Set_ Vk0 (rateConstOf low);
            Set_ VPr (Div (Mul (Var VcTBC) (Var Vk0)) (Var Vk_f));
            Set_ Vpmod (Div (Var VPr) (Add (Num 1) (Var VPr)));
            MulSet Vk_f (Var Vpmod)]
  | RTroe _ low c =>
      match fcentText c with
      | None => None
      | Some fc =>
          Some [Set_ VFcent fc;
                Set_ VC (Sub (Num (- (4/10))) (Mul (Num (67/100)) (Lg10 (Var VFcent))));
                Set_ VN (Sub (Num (75/100)) (Mul (Num (127/100)) (Lg10 (Var VFcent))));
                Set_ Vk0 (rateConstOf low);
                Set_ VPr (Div (Mul (Var VcTBC) (Var Vk0)) (Var Vk_f));
                Set_ VA (Add (Lg10 (Var VPr)) (Var VC));
                Set_ Vf1 (Div (Var VA) (Sub (Var VN) (Mul (Num (14/100)) (Var VA))));
                Set_ VF_pdr (Pw (Num 10) (Div (Lg10 (Var VFcent)) (Add (Num 1) (Mul (Var Vf1) (Var Vf1)))));
                Set_ Vpmod (Mul (Div (Var VPr) (Add (Num 1) (Var VPr))) (Var VF_pdr));
                MulSet Vk_f (Var Vpmod)]
      end
  | ROther => None
  end.
(** " * cs[j]" or " * pow(cs[j],s)" for every s > 0 (ct2pgChem.py:420-440) *)
Definition products (ns : Z) (k : cx) (nu : Z -> R) : cx :=
  fold_left (fun a j => if Req_EM_T (nu j) 1 then Mul a (Cs j) else if Rlt_dec 0 (nu j) then Mul a (Pw (Cs j) (Num (nu j))) else a) (zrange 0 ns) k.
(** everything that is written for reaction i (ct2pgChem.py:291-446) *)
Definition genReaction (ns : Z) (i : Z) (r : ctReac) : option (list stmt) :=
  match dGText ns r, tbcText ns (ctType r), falloffText (ctType r) with
  | Some dg, Some tb, Some fo =>
      Some ([Set_ Vk_f (rateConstOf (ctRate r)); Set_ VdG dg; Set_ VK_c (kcText ns r)] ++ tb ++ fo ++
            [Set_ Vq_f (products ns (Var Vk_f) (ctF r)); Set_ Vq_b (products ns (Div (Neg (Var Vk_f)) (Var VK_c)) (ctB r));
             SetQ i (if ctRev r then Add (Var Vq_f) (Var Vq_b) else Var Vq_f)])
  | _, _, _ => None
  end.
Fixpoint genReactions (ns : Z) (i : Z) (rs : list ctReac) : option (list stmt) :=
  match rs with
  | [] => Some []
  | r :: rs' => match genReaction ns i r, genReactions ns (i + 1) rs' with Some a, Some b => Some (a ++ b) | _, _ => None end
  end.
(** the source term of species n (ct2pgChem.py:452-471) *)
Fixpoint sourceItems (rs : list ctReac) (i n : Z) : list item :=
  match rs with [] => [] | r :: rs' => signedItem (ctB r n - ctF r n) (Qx i) ++ sourceItems rs' (i + 1) n end.
Definition genSource (rs : list ctReac) (n : Z) : option stmt :=
  match sourceItems rs 0 n with
  | [] => Some (SetD n (Mul (Mw n) (Num 0)))
  | l => match sumText l with Some e => Some (SetD n (Mul (Mw n) e)) | None => None end
  end.
Fixpoint allSome {X} (l : list (option X)) : option (list X) :=
  match l with [] => Some [] | Some x :: l' => match allSome l' with Some r => Some (x :: r) | None => None end | None :: _ => None end.
(** the statements from "double logT" to the last dYdt (ct2pgChem.py:270-471); None: the utility raises an exception or writes text that
    does not compile *)
Definition generate (ns : Z) (Ru : R) (rs : list ctReac) : option (list stmt) :=
  match genReactions ns 0 rs, allSome (map (genSource rs) (zrange 0 ns)) with
  | Some a, Some b =>
      Some ([Set_ VlogT (Lg (Var VT)); Set_ VTinv (Div (Num 1) (Var VT)); Set_ VprefRuT (Div (Num 101325) (Mul (Num Ru) (Var VT)))] ++ a ++ b)
  | _, _ => None
  end.
(** the variables when these statements start: T has its value, the others are uninitialised *)
Definition start (T : R) : env := mkEnv (fun x => if cvar_beq x VT then Some T else None) (fun _ => None) (fun _ => None).
