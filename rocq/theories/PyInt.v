(** * A static analysis of integer arguments, and its soundness

    The interpreter runs a program twice: once on arguments some of which are ints, once on the
    same arguments with ints replaced by floats.  [aeval]/[aexec]/[acall] run it a third time, on
    abstract values that bound the size of the ints; if that succeeds, no int overflows, and the
    two runs give the same result.  [sound_call] is the theorem.

    "The same" is up to an equivalence [req] of floats, and [lim] bounds the ints whose float is
    exact: equality and 2^63 for the reals, equality up to the sign of zero and 2^53 for binary64. *)
From Coq Require Import ZArith List String Bool Lia.
From Verif Require Import Arith PySyntax PySemantics.
Import ListNotations.
Local Open Scope string_scope.

Inductive aval : Type :=
| AFloat                        (* equivalent floats in both runs *)
| AMix (b : Z)                  (* a number: equivalent floats, or an int of size at most [b] against the int or its float *)
| AExact (z : Z)                (* this int, in both runs *)
| ABool
| ATuple (l : list aval)
| AFun (m f : string)
| ABuiltin (f : string).

Definition limit : Z := (2 ^ 63)%Z.
Definition bound_of (a : aval) : option Z :=
  match a with AMix b => Some b | AExact z => Some (Z.abs z) | _ => None end.
Definition is_num (a : aval) : bool := match a with AFloat | AMix _ | AExact _ => true | _ => false end.
Definition abind {S T} (m : option S) (k : S -> option T) : option T := match m with Some x => k x | None => None end.
Notation "'dop' x '<-' m ';' k" := (abind m (fun x => k)) (at level 200, x name, m at level 100, k at level 200, right associativity).
Section Analysis.
Variable lim : Z.
Definition mixed (b : Z) : option aval := if Z.ltb b lim then Some (AMix b) else None.
Definition exact (z : Z) : option aval := if Z.ltb (Z.abs z) lim then Some (AExact z) else None.
(** An int, if it is one, that a float represents exactly. *)
Definition small (a : aval) : bool := match bound_of a with Some b => Z.ltb b lim | None => true end.
Definition abin (o : binop) (a b : aval) : option aval :=
  match o with
  | Div => if is_num a && is_num b then Some AFloat else None
  | Pow =>
      match b with
      | AExact n =>
          match a with
          | AExact z => if Z.leb 0 n then exact (z ^ n) else None
          | AFloat => match n with Zpos _ => Some AFloat | _ => None end
          | AMix c => match n with Zpos _ => mixed (c ^ n) | _ => None end
          | _ => None
          end
      | _ => None
      end
  | _ =>
      match a, b with
      | AExact x, AExact y => exact (match o with Add => x + y | Sub => x - y | _ => x * y end)
      | _, _ =>
          match bound_of a, bound_of b with
          | Some x, Some y => if small a && small b then mixed (match o with Mult => x * y | _ => x + y end) else None
          | _, _ => if is_num a && is_num b then Some AFloat else None
          end
      end
  end%Z.
Definition ausub (a : aval) : option aval :=
  match a with AFloat => Some AFloat | AMix b => mixed b | AExact z => exact (- z) | _ => None end.
Fixpoint aval_eqb (a b : aval) : bool :=
  let fix eqs (l m : list aval) : bool :=
    match l, m with [], [] => true | x :: l', y :: m' => aval_eqb x y && eqs l' m' | _, _ => false end in
  match a, b with
  | AFloat, AFloat | ABool, ABool => true
  | AMix x, AMix y | AExact x, AExact y => Z.eqb x y
  | ATuple l, ATuple m => eqs l m
  | AFun m f, AFun m' f' => String.eqb m m' && String.eqb f f'
  | ABuiltin f, ABuiltin f' => String.eqb f f'
  | _, _ => false
  end.
Definition ajoin (a b : aval) : option aval :=
  if aval_eqb a b then Some a
  else match a, b with
       | AFloat, _ => match bound_of b with Some y => mixed y | None => None end
       | _, AFloat => match bound_of a with Some x => mixed x | None => None end
       | _, _ => match bound_of a, bound_of b with Some x, Some y => mixed (Z.max x y) | _, _ => None end
       end.
Definition acmp (o : cmpop) (a b : aval) : bool :=
  match o with
  | In => (is_num a && small a) && match b with ATuple l => forallb (fun b => is_num b && small b) l | _ => false end
  | _ => (is_num a && small a) && (is_num b && small b)
  end.
Definition abuiltin (f : string) (args : list aval) : option aval :=
  match args with
  | [v] =>
      if String.eqb f "bool" then match v with ABool => Some ABool | _ => None end
      else if is_num v then
        if existsb (String.eqb f) ["np.sqrt"; "np.log"; "np.arctan"; "np.cos"; "np.sin"; "np.radians"] then Some AFloat else None
      else None
  | _ => None
  end.
Definition aattribute (m x : string) : option aval :=
  if String.eqb m "np" then
    if String.eqb x "pi" then Some AFloat
    else if String.eqb x "nan" then Some AFloat
    else Some (ABuiltin ("np." ++ x))
  else None.

(** Abstract environments: [None] for a variable not known to have a value. *)
Definition aenv := list (string * option aval).
Fixpoint astore_all (xs : list string) (vs : list aval) (e : aenv) : option aenv :=
  match xs, vs with
  | [], [] => Some e
  | x :: xs', v :: vs' => astore_all xs' vs' (store x (Some v) e)
  | _, _ => None
  end.
Definition ajoin_env (e1 e2 : aenv) : aenv :=
  (map (fun xa => (fst xa, match snd xa, lookup (fst xa) e2 with Some a, Some (Some b) => ajoin a b | _, _ => None end)) e1
  ++ map (fun xa => (fst xa, None)) e2)%list.
(** Where execution may be after a statement: running in an environment, or returned. *)
Definition aflow : Type := option aenv * option aval.
Definition ajoin_flow (f g : aflow) : option aflow :=
  dop r <- match snd f, snd g with
           | None, r | r, None => Some r
           | Some a, Some b => dop c <- ajoin a b; Some (Some c)
           end;
  Some (match fst f, fst g with None, s | s, None => s | Some s, Some t => Some (ajoin_env s t) end, r).

Section ABody.
Variable acall : string -> string -> list aval -> option aval.
Variable aglobal : string -> option aval.
Definition aapply (f : aval) (args : list aval) : option aval :=
  match f with AFun m f => acall m f args | ABuiltin f => abuiltin f args | _ => None end.
Fixpoint aeval (s : aenv) (e : expr) {struct e} : option aval :=
  let fix aeval_list (es : list expr) : option (list aval) :=
    match es with
    | [] => Some []
    | e :: es' => dop v <- aeval s e; dop vs <- aeval_list es'; Some (v :: vs)
    end in
  match e with
  | Name x => match lookup x s with Some v => v | None => aglobal x end
  | Int z => exact z
  | Float n d => Some AFloat
  | Attribute m x => aattribute m x
  | BinOp l o r => dop v <- aeval s l; dop w <- aeval s r; abin o v w
  | USub e => dop v <- aeval s e; ausub v
  | Compare l rest =>
      dop v <- aeval s l;
      (fix chain (v : aval) (rest : list (cmpop * expr)) : option aval :=
         match rest with
         | [] => Some ABool
         | (o, r) :: rest' => dop w <- aeval s r; if acmp o v w then chain w rest' else None
         end) v rest
  | BoolOp o es =>
      (fix sc (es : list expr) : option aval :=
         match es with
         | [] => Some ABool
         | e :: es' => dop v <- aeval s e; match v with ABool => sc es' | _ => None end
         end) es
  | IfExp c a b =>
      dop v <- aeval s c;
      match v with ABool => dop x <- aeval s a; dop y <- aeval s b; ajoin x y | _ => None end
  | Call f args => dop g <- aeval s f; dop vs <- aeval_list args; aapply g vs
  | Tuple es => dop vs <- aeval_list es; Some (ATuple vs)
  end.
Definition aiterate (s : aenv) (e : expr) : option (list aval) :=
  match e with
  | Call (Name f) [n] =>
      if String.eqb f "range" then
        dop v <- aeval s n;
        match v with
        | AExact z => Some (map (fun i => AExact (Z.of_nat i)) (seq 0 (Z.to_nat z)))
        | _ => None
        end
      else None
  | _ => None
  end.
(** [seq_flow f k]: then [k], if still running. *)
Definition aseq (f : aflow) (k : aenv -> option aflow) : option aflow :=
  match fst f with
  | None => Some f
  | Some s => dop g <- k s; ajoin_flow (None, snd f) g
  end.
Fixpoint aexec (s : aenv) (c : stmt) {struct c} : option aflow :=
  let fix ablock (s : aenv) (cs : list stmt) : option aflow :=
    match cs with
    | [] => Some (Some s, None)
    | c :: cs' => dop f <- aexec s c; aseq f (fun s' => ablock s' cs')
    end in
  match c with
  | Assign [x] e => dop v <- aeval s e; Some (Some (store x (Some v) s), None)
  | Assign xs e =>
      dop v <- aeval s e;
      match v with ATuple vs => dop s' <- astore_all xs vs s; Some (Some s', None) | _ => None end
  | AugAssign x o e =>
      match lookup x s with
      | Some (Some v) => dop w <- aeval s e; dop r <- abin o v w; Some (Some (store x (Some r) s), None)
      | _ => None
      end
  | If c a b =>
      dop v <- aeval s c;
      match v with ABool => dop f <- ablock s a; dop g <- ablock s b; ajoin_flow f g | _ => None end
  | For x it cs =>
      dop vs <- aiterate s it;
      (fix aloop (vs : list aval) (s : aenv) : option aflow :=
         match vs with
         | [] => Some (Some s, None)
         | v :: vs' => dop f <- ablock (store x (Some v) s) cs; aseq f (fun s' => aloop vs' s')
         end) vs s
  | Return e => dop v <- aeval s e; Some (None, Some v)
  end.
Fixpoint aexec_block (s : aenv) (cs : list stmt) : option aflow :=
  match cs with
  | [] => Some (Some s, None)
  | c :: cs' => dop f <- aexec s c; aseq f (fun s' => aexec_block s' cs')
  end.
Definition aunify (a : aval) : aval := match a with AMix _ | AExact _ => AFloat | _ => a end.
Definition acall_body (d : fundef) (args : list aval) : option aval :=
  dop s <- astore_all (params d) args [];
  dop f <- aexec_block s (body d);
  match f with (None, Some a) => Some (aunify a) | _ => None end.
End ABody.

Section AProgram.
Variable program : list pymodule.
Fixpoint aresolve (depth : nat) (m x : string) : option aval :=
  match find_module m program with
  | None => None
  | Some d =>
      match find_fun x (funs d) with
      | Some _ => Some (AFun m x)
      | None =>
          match lookup x (consts d) with
          | Some e => aeval (fun _ _ _ => None) (fun _ => None) [] e
          | None =>
              match find_import x (imports d), depth with
              | Some m', S depth' => aresolve depth' m' x
              | _, _ => None
              end
          end
      end
  end.
Definition aglobal_of (m x : string) : option aval :=
  if String.eqb x "bool" then Some (ABuiltin "bool") else aresolve 5 m x.
Fixpoint acall (fuel : nat) (m f : string) (args : list aval) : option aval :=
  match fuel with
  | O => None
  | S fuel' =>
      match find_module m program with
      | None => None
      | Some d =>
          match find_fun f (funs d) with
          | None => None
          | Some fd => acall_body (acall fuel') (aglobal_of m) fd args
          end
      end
  end.
Definition apython_call (m f : string) (args : list aval) : option aval :=
  dop v <- aresolve 5 m f;
  match v with AFun m' f' => acall 10 m' f' args | _ => None end.
End AProgram.
End Analysis.

(** ** Soundness *)
Lemma wrap_small z : (Z.abs z < limit)%Z -> wrap z = z.
Proof. rewrite wrap_modulo. unfold limit. intros H. rewrite Z.mod_small; lia. Qed.

Section Sound.
Context {A : arith}.
(** Conversion of ints to floats is exact: true of the reals. *)
Record exact_ints : Prop := {
  hom_add : forall a b, @add A (ofZ a) (ofZ b) = ofZ (a + b);
  hom_sub : forall a b, @sub A (ofZ a) (ofZ b) = ofZ (a - b);
  hom_mul : forall a b, @mul A (ofZ a) (ofZ b) = ofZ (a * b);
  hom_neg : forall a, @neg A (ofZ a) = ofZ (- a);
  hom_eqb : forall a b, @eqb A (ofZ a) (ofZ b) = Z.eqb a b;
  hom_ltb : forall a b, @ltb A (ofZ a) (ofZ b) = Z.ltb a b;
  hom_leb : forall a b, @leb A (ofZ a) (ofZ b) = Z.leb a b
}.
(** The same, up to [req] and for ints smaller than [lim], and operations that respect [req]. *)
Record float_like (req : A -> A -> Prop) (lim : Z) : Prop := {
  q_one : (1 < lim)%Z;
  q_lim : (lim <= limit)%Z;
  q_refl : forall x, req x x;
  q_trans : forall x y z, req x y -> req y z -> req x z;
  q_add : forall x x' y y', req x x' -> req y y' -> req (add x y) (add x' y');
  q_sub : forall x x' y y', req x x' -> req y y' -> req (sub x y) (sub x' y');
  q_mul : forall x x' y y', req x x' -> req y y' -> req (mul x y) (mul x' y');
  q_div : forall x x' y y', req x x' -> req y y' -> eqb y (ofZ 0) = false -> req (divu x y) (divu x' y');
  q_neg : forall x x', req x x' -> req (neg x) (neg x');
  q_sqrt : forall x x', req x x' -> req (sqrt_ x) (sqrt_ x');
  q_log : forall x x', req x x' -> req (log_ x) (log_ x');
  q_atan : forall x x', req x x' -> req (atan_ x) (atan_ x');
  q_cos : forall x x', req x x' -> req (cos_ x) (cos_ x');
  q_sin : forall x x', req x x' -> req (sin_ x) (sin_ x');
  q_eqb : forall x x' y y', req x x' -> req y y' -> eqb x y = eqb x' y';
  q_ltb : forall x x' y y', req x x' -> req y y' -> ltb x y = ltb x' y';
  q_leb : forall x x' y y', req x x' -> req y y' -> leb x y = leb x' y';
  h_add : forall a b, (Z.abs a < lim)%Z -> (Z.abs b < lim)%Z -> (Z.abs (a + b) < lim)%Z -> req (ofZ (a + b)) (add (ofZ a) (ofZ b));
  h_sub : forall a b, (Z.abs a < lim)%Z -> (Z.abs b < lim)%Z -> (Z.abs (a - b) < lim)%Z -> req (ofZ (a - b)) (sub (ofZ a) (ofZ b));
  h_mul : forall a b, (Z.abs a < lim)%Z -> (Z.abs b < lim)%Z -> (Z.abs (a * b) < lim)%Z -> req (ofZ (a * b)) (mul (ofZ a) (ofZ b));
  h_neg : forall a, (Z.abs a < lim)%Z -> req (ofZ (- a)) (neg (ofZ a));
  h_eqb : forall a b, (Z.abs a < lim)%Z -> (Z.abs b < lim)%Z -> @eqb A (ofZ a) (ofZ b) = Z.eqb a b;
  h_ltb : forall a b, (Z.abs a < lim)%Z -> (Z.abs b < lim)%Z -> @ltb A (ofZ a) (ofZ b) = Z.ltb a b;
  h_leb : forall a b, (Z.abs a < lim)%Z -> (Z.abs b < lim)%Z -> @leb A (ofZ a) (ofZ b) = Z.leb a b
}.
Section Exact.
Hypothesis HA : exact_ints.
Lemma hom_pow_loop p acc v : @pow_loop A (ofZ acc) (ofZ v) p = ofZ (acc * v ^ Zpos p).
Proof.
  revert acc v. induction p; intros acc v; cbn [pow_loop].
  - rewrite !(hom_mul HA), IHp. f_equal. rewrite (Pos2Z.inj_xI p), Z.pow_add_r, Z.pow_mul_r by lia.
    rewrite Z.pow_2_r, Z.pow_1_r. ring.
  - rewrite (hom_mul HA), IHp. f_equal. rewrite (Pos2Z.inj_xO p), Z.pow_mul_r by lia. rewrite Z.pow_2_r. ring.
  - rewrite (hom_mul HA). f_equal. ring.
Qed.
Lemma hom_pow v p : @fpow A (ofZ v) p = ofZ (v ^ Zpos p).
Proof. unfold fpow. rewrite hom_pow_loop. f_equal. ring. Qed.

(** Equality and 2^63. *)
Lemma exact_float_like : float_like eq limit.
Proof.
  constructor; intros; subst; try reflexivity; try (symmetry; apply HA; fail); try (apply HA; fail).
Qed.
End Exact.

Variables (req : A -> A -> Prop) (lim : Z).
Hypothesis Q : float_like req lim.
Local Notation mixed := (mixed lim).
Local Notation exact := (exact lim).
Local Notation small := (small lim).
Local Notation abin := (abin lim).
Local Notation ausub := (ausub lim).
Local Notation ajoin := (ajoin lim).
Local Notation acmp := (acmp lim).
Local Notation ajoin_env := (ajoin_env lim).
Local Notation ajoin_flow := (ajoin_flow lim).
Local Notation aeval := (aeval lim).
Local Notation aiterate := (aiterate lim).
Local Notation aseq := (aseq lim).
Local Notation aexec := (aexec lim).
Local Notation aexec_block := (aexec_block lim).
Local Notation acall_body := (acall_body lim).
Local Notation aresolve := (aresolve lim).
Local Notation aglobal_of := (aglobal_of lim).
Local Notation acall := (acall lim).
Local Notation apython_call := (apython_call lim).
Lemma pow_congr p acc acc' v v' : req acc acc' -> req v v' -> req (pow_loop acc v p) (pow_loop acc' v' p).
Proof.
  revert acc acc' v v'. induction p; intros acc acc' v v' Ha Hv; cbn [pow_loop].
  - apply IHp; apply (q_mul _ _ Q); assumption.
  - apply IHp; [assumption|apply (q_mul _ _ Q); assumption].
  - apply (q_mul _ _ Q); assumption.
Qed.
Lemma pow_loop_hom p acc v x y :
  (Z.max 1 (Z.abs acc) * Z.max 1 (Z.abs v) ^ Zpos p < lim)%Z -> req (ofZ acc) x -> req (ofZ v) y ->
  req (ofZ (acc * v ^ Zpos p)) (pow_loop x y p).
Proof.
  revert acc v x y. induction p; intros acc v x y B Hx Hy; cbn [pow_loop].
  - rewrite Pos2Z.inj_xI, Z.pow_add_r, Z.pow_mul_r, Z.pow_1_r, Z.pow_2_r in B |- * by lia.
    set (m := Z.max 1 (Z.abs v)) in *. set (k := Z.max 1 (Z.abs acc)) in *.
    assert (M1 : (1 <= m)%Z) by lia. assert (K1 : (1 <= k)%Z) by lia.
    assert (MM : (1 <= m * m)%Z) by nia.
    assert (P1 : (1 <= (m * m) ^ Zpos p)%Z) by (rewrite <- (Z.pow_1_l (Zpos p)) by lia; apply Z.pow_le_mono_l; lia).
    assert (MP : (m * m <= (m * m) ^ Zpos p)%Z) by (rewrite <- (Z.pow_1_r (m * m)) at 1; apply Z.pow_le_mono_r; lia).
    set (w := ((m * m) ^ Zpos p)%Z) in *.
    assert (B1 : (k * m * w < lim)%Z) by nia.
    assert (B2 : (k * m < lim)%Z) by nia.
    assert (B3 : (m * m < lim)%Z) by nia.
    replace (acc * ((v * v) ^ Z.pos p * v))%Z with ((acc * v) * (v * v) ^ Z.pos p)%Z by ring.
    assert (Va : (Z.abs v <= m)%Z) by lia. assert (Aa : (Z.abs acc <= k)%Z) by lia.
    assert (E1 : (Z.abs (acc * v) <= k * m)%Z) by (rewrite Z.abs_mul; nia).
    assert (E2 : (Z.abs (v * v) <= m * m)%Z) by (rewrite Z.abs_mul; nia).
    apply IHp.
    + assert (X1 : (Z.max 1 (Z.abs (acc * v)) <= k * m)%Z) by nia.
      assert (X2 : (Z.max 1 (Z.abs (v * v)) <= m * m)%Z) by nia.
      assert (X3 : (Z.max 1 (Z.abs (v * v)) ^ Zpos p <= w)%Z) by (apply Z.pow_le_mono_l; lia).
      eapply Z.le_lt_trans; [apply Z.mul_le_mono_nonneg; [lia|exact X1|apply Z.pow_nonneg; lia|exact X3]|]. exact B1.
    + eapply (q_trans _ _ Q); [apply (h_mul _ _ Q); nia|apply (q_mul _ _ Q); assumption].
    + eapply (q_trans _ _ Q); [apply (h_mul _ _ Q); nia|apply (q_mul _ _ Q); assumption].
  - rewrite Pos2Z.inj_xO, Z.pow_mul_r, Z.pow_2_r in B |- * by lia.
    set (m := Z.max 1 (Z.abs v)) in *. set (k := Z.max 1 (Z.abs acc)) in *.
    assert (M1 : (1 <= m)%Z) by lia. assert (K1 : (1 <= k)%Z) by lia.
    assert (MM : (1 <= m * m)%Z) by nia.
    assert (MP : (m * m <= (m * m) ^ Zpos p)%Z) by (rewrite <- (Z.pow_1_r (m * m)) at 1; apply Z.pow_le_mono_r; lia).
    set (w := ((m * m) ^ Zpos p)%Z) in *.
    assert (B3 : (m * m < lim)%Z) by nia.
    assert (Va : (Z.abs v <= m)%Z) by lia.
    assert (E2 : (Z.abs (v * v) <= m * m)%Z) by (rewrite Z.abs_mul; nia).
    apply IHp.
    + assert (X2 : (Z.max 1 (Z.abs (v * v)) <= m * m)%Z) by nia.
      assert (X3 : (Z.max 1 (Z.abs (v * v)) ^ Zpos p <= w)%Z) by (apply Z.pow_le_mono_l; lia).
      eapply Z.le_lt_trans; [apply Z.mul_le_mono_nonneg_l; [lia|exact X3]|]. exact B.
    + exact Hx.
    + eapply (q_trans _ _ Q); [apply (h_mul _ _ Q); nia|apply (q_mul _ _ Q); assumption].
  - rewrite Z.pow_1_r in B |- *.
    assert (E1 : (Z.abs (acc * v) <= Z.max 1 (Z.abs acc) * Z.max 1 (Z.abs v))%Z) by (rewrite Z.abs_mul; nia).
    assert (Z.abs acc < lim /\ Z.abs v < lim)%Z by nia.
    eapply (q_trans _ _ Q); [apply (h_mul _ _ Q); lia|apply (q_mul _ _ Q); assumption].
Qed.
Lemma pow_hom c z p x : (Z.abs z <= c)%Z -> (c ^ Zpos p < lim)%Z -> req (ofZ z) x -> req (ofZ (z ^ Zpos p)) (fpow x p).
Proof.
  intros Hz B H. unfold fpow. rewrite <- (Z.mul_1_l (z ^ Zpos p)). apply pow_loop_hom.
  - change (Z.max 1 (Z.abs 1)) with 1%Z. rewrite Z.mul_1_l.
    destruct (Z.le_gt_cases 1 (Z.abs z)) as [L|L].
    + eapply Z.le_lt_trans; [|exact B]. apply Z.pow_le_mono_l. lia.
    + replace (Z.max 1 (Z.abs z)) with 1%Z by lia. rewrite Z.pow_1_l by lia. exact (q_one _ _ Q).
  - apply (q_refl _ _ Q).
  - exact H.
Qed.

Local Notation V := (value A).
Inductive rel : aval -> V -> V -> Prop :=
| R_float x y : req x y -> rel AFloat (VFloat x) (VFloat y)
| R_mixf b x y : req x y -> rel (AMix b) (VFloat x) (VFloat y)
| R_mixi b z : (Z.abs z <= b)%Z -> rel (AMix b) (VInt z) (VInt z)
| R_mixc b z x : (Z.abs z <= b)%Z -> req (ofZ z) x -> rel (AMix b) (VInt z) (VFloat x)
| R_exact z : rel (AExact z) (VInt z) (VInt z)
| R_bool b : rel ABool (VBool b) (VBool b)
| R_tuple l vs ws : rels l vs ws -> rel (ATuple l) (VTuple vs) (VTuple ws)
| R_fun m f : rel (AFun m f) (VFun m f) (VFun m f)
| R_builtin f : rel (ABuiltin f) (VBuiltin f) (VBuiltin f)
with rels : list aval -> list V -> list V -> Prop :=
| R_nil : rels [] [] []
| R_cons a v w l vs ws : rel a v w -> rels l vs ws -> rels (a :: l) (v :: vs) (w :: ws).

(** The outcomes of the two runs; the second never gets stuck. *)
Definition orel {S T} (R : S -> T -> Prop) (o1 : outcome S) (o2 : outcome T) : Prop :=
  match o2 with Ok w => exists v, o1 = Ok v /\ R v w | Exn e => o1 = Exn e | Stuck => False end.
Lemma orel_ok {S T} (R : S -> T -> Prop) v w : R v w -> orel R (Ok v) (Ok w).
Proof. intros H. exists v. auto. Qed.
Lemma orel_bind {S T S' T'} (R : S -> T -> Prop) (R' : S' -> T' -> Prop) m1 m2 k1 k2 :
  orel R m1 m2 -> (forall v w, R v w -> orel R' (k1 v) (k2 w)) -> orel R' (obind m1 k1) (obind m2 k2).
Proof.
  destruct m2 as [w|e|]; cbn [orel obind].
  - intros [v [-> H]] K. exact (K v w H).
  - intros -> _. reflexivity.
  - intros [].
Qed.
Lemma abind_some {S T} (m : option S) (k : S -> option T) r : abind m k = Some r -> exists x, m = Some x /\ k x = Some r.
Proof. destruct m; [|discriminate]. intros H. eexists. eauto. Qed.

Lemma num_cases a v w : is_num a = true -> rel a v w ->
  (exists x y, v = VFloat x /\ w = VFloat y /\ req x y /\ forall z, a <> AExact z) \/
  (exists z b, v = VInt z /\ w = VInt z /\ bound_of a = Some b /\ (Z.abs z <= b)%Z) \/
  (exists z b x, v = VInt z /\ w = VFloat x /\ req (ofZ z) x /\ bound_of a = Some b /\ (Z.abs z <= b)%Z /\ forall z, a <> AExact z).
Proof.
  intros N H. destruct H; try discriminate N.
  - left. exists x, y. repeat split; try congruence.
  - left. exists x, y. repeat split; try congruence.
  - right; left. exists z, b. auto.
  - right; right. exists z, b, x. repeat split; auto; congruence.
  - right; left. exists z, (Z.abs z). repeat split; auto; lia.
Qed.
Lemma num_float a v w : is_num a = true -> rel a v w -> exists x y, to_float v = Ok x /\ to_float w = Ok y /\ req x y.
Proof.
  intros N H. pose proof (q_refl _ _ Q). destruct H; try discriminate N; eexists; eexists; (split; [reflexivity|]); (split; [reflexivity|]); auto.
Qed.
Lemma mixed_some b r : mixed b = Some r -> r = AMix b /\ (b < lim)%Z.
Proof. unfold PyInt.mixed. destruct (Z.ltb_spec b lim); [|discriminate]. intros [= <-]. auto. Qed.
Lemma exact_some b r : exact b = Some r -> r = AExact b /\ (Z.abs b < lim)%Z.
Proof. unfold PyInt.exact. destruct (Z.ltb_spec (Z.abs b) lim); [|discriminate]. intros [= <-]. auto. Qed.
Lemma small_bound a b : small a = true -> bound_of a = Some b -> (b < lim)%Z.
Proof. unfold PyInt.small. intros S H. rewrite H in S. lia. Qed.
Lemma wrap_lim z : (Z.abs z < lim)%Z -> wrap z = z.
Proof. intros H. apply wrap_small. pose proof (q_lim _ _ Q). lia. Qed.

(** Addition, subtraction, multiplication. *)
Definition zop (o : binop) : Z -> Z -> Z := match o with Add => Z.add | Sub => Z.sub | _ => Z.mul end.
Definition fop (o : binop) : A -> A -> A := match o with Add => add | Sub => sub | _ => mul end.
Definition ring_op (o : binop) : bool := match o with Add | Sub | Mult => true | _ => false end.
Lemma binop_ring o (v w : V) : ring_op o = true -> binop_sem o v w =
  match v, w with VInt a, VInt b => Ok (VInt (wrap (zop o a b))) | _, _ => float_op (fop o) v w end.
Proof. intros H. destruct o; try discriminate H; destruct v, w; reflexivity. Qed.
Lemma zop_bound o a b x y : ring_op o = true -> (Z.abs a <= x -> Z.abs b <= y -> Z.abs (zop o a b) <= match o with Mult => x * y | _ => x + y end)%Z.
Proof.
  intros H Ha Hb. destruct o; try discriminate H; cbn [zop]; try lia.
  rewrite Z.abs_mul. apply Z.mul_le_mono_nonneg; lia.
Qed.
Lemma fop_congr o x x' y y' : ring_op o = true -> req x x' -> req y y' -> req (fop o x y) (fop o x' y').
Proof. intros H. destruct o; try discriminate H; cbn [fop]; [apply (q_add _ _ Q)|apply (q_sub _ _ Q)|apply (q_mul _ _ Q)]. Qed.
Lemma fop_hom o a b x y : ring_op o = true -> (Z.abs a < lim)%Z -> (Z.abs b < lim)%Z -> (Z.abs (zop o a b) < lim)%Z ->
  req (ofZ a) x -> req (ofZ b) y -> req (ofZ (zop o a b)) (fop o x y).
Proof.
  intros H La Lb L Hx Hy. eapply (q_trans _ _ Q); [|apply (fop_congr o _ _ _ _ H Hx Hy)].
  destruct o; try discriminate H; cbn [fop zop] in *; [apply (h_add _ _ Q)|apply (h_sub _ _ Q)|apply (h_mul _ _ Q)]; assumption.
Qed.
Lemma sound_bin o a b r v v' w w' : abin o a b = Some r -> rel a v v' -> rel b w w' -> orel (rel r) (binop_sem o v w) (binop_sem o v' w').
Proof.
  intros E Ha Hb. destruct (ring_op o) eqn:O.
  - assert (N : is_num a = true /\ is_num b = true).
    { destruct o; try discriminate O; destruct a; try discriminate E; destruct b; try discriminate E; auto. }
    destruct N as [Na Nb].
    assert (E' : match a, b with AExact x, AExact y => exact (zop o x y) | _, _ =>
              match bound_of a, bound_of b with Some x, Some y => if small a && small b then mixed (match o with Mult => x * y | _ => x + y end)%Z else None | _, _ => Some AFloat end end = Some r).
    { destruct o; try discriminate O; destruct a; try discriminate Na; destruct b; try discriminate Nb; exact E. }
    clear E.
    rewrite (binop_ring o v w O), (binop_ring o v' w' O).
    assert (X : forall x y : Z, a = AExact x -> b = AExact y -> exact (zop o x y) = Some r) by (intros x y -> ->; exact E').
    assert (Y : forall x y, bound_of a = Some x -> bound_of b = Some y -> (forall p q, a <> AExact p \/ b <> AExact q) ->
       (if small a && small b then mixed (match o with Mult => x * y | _ => x + y end)%Z else None) = Some r).
    { intros x y Ex Ey D. destruct a; try discriminate Ex; destruct b; try discriminate Ey; cbn in Ex, Ey; injection Ex as <-; injection Ey as <-; try exact E'.
      destruct (D z z0); congruence. }
    assert (Y' : forall x y, bound_of a = Some x -> bound_of b = Some y -> (forall p q, a <> AExact p \/ b <> AExact q) ->
       (x < lim)%Z /\ (y < lim)%Z /\ mixed (match o with Mult => x * y | _ => x + y end)%Z = Some r).
    { intros x y Ex Ey D. specialize (Y x y Ex Ey D). destruct (small a) eqn:Sa; [|discriminate Y]. destruct (small b) eqn:Sb; [|discriminate Y].
      split; [exact (small_bound _ _ Sa Ex)|]. split; [exact (small_bound _ _ Sb Ey)|exact Y]. }
    clear Y.
    assert (F : r = AFloat \/ exists m, r = AMix m \/ exists x y, a = AExact x /\ b = AExact y).
    { destruct a; try discriminate Na; destruct b; try discriminate Nb; cbn [bound_of] in E'; try (injection E' as <-; auto);
      try (match type of E' with (if ?t then _ else _) = _ => destruct t; [|discriminate E'] end; apply mixed_some in E'; destruct E' as [-> _]; eauto).
      right. exists 0%Z. right. eauto. }
    assert (FF : forall x x', (forall p q, a <> AExact p \/ b <> AExact q) -> req x x' -> rel r (VFloat x) (VFloat x')).
    { intros x x' D Hx. destruct F as [->|[m [->|[p [q [P Q']]]]]]; [constructor; exact Hx|constructor; exact Hx|destruct (D p q); congruence]. }
    pose proof (q_refl _ _ Q) as RR.
    destruct (num_cases a v v' Na Ha) as [[x [x' [-> [-> [Rx Dx]]]]]|[[x [bx [-> [-> [Bx Lx]]]]]|[x [bx [x' [-> [-> [Rx [Bx [Lx Dx]]]]]]]]]];
    destruct (num_cases b w w' Nb Hb) as [[y [y' [-> [-> [Ry Dy]]]]]|[[y [by_ [-> [-> [By Ly]]]]]|[y [by_ [y' [-> [-> [Ry [By [Ly Dy]]]]]]]]]];
    cbn [to_float float_op obind];
    try (apply orel_ok, FF; [auto|apply (fop_congr o _ _ _ _ O); auto]; fail).
    all: pose proof (zop_bound o x y bx by_ O Lx Ly) as B.
    2-4: destruct (Y' bx by_ Bx By ltac:(auto)) as [L1 [L2 M]]; destruct (mixed_some _ _ M) as [-> Lim]; rewrite wrap_lim by lia;
      apply orel_ok; constructor; [exact B|apply (fop_hom o x y); auto; lia].
    assert (D : (exists p q, a = AExact p /\ b = AExact q) \/ (forall p q, a <> AExact p \/ b <> AExact q)).
    { destruct a; try (right; intros; left; congruence). destruct b; try (right; intros; right; congruence). left; eauto. }
    destruct D as [[p [q [-> ->]]]|D].
    + inversion Ha; inversion Hb; subst. destruct (exact_some _ _ (X x y eq_refl eq_refl)) as [-> Lim].
      rewrite wrap_lim by exact Lim. apply orel_ok. constructor.
    + destruct (Y' bx by_ Bx By D) as [L1 [L2 M]]; destruct (mixed_some _ _ M) as [-> Lim]. rewrite wrap_lim by lia. apply orel_ok. constructor; exact B.
  - destruct o; try discriminate O.
    + (* Div *)
      cbn [PyInt.abin] in E. destruct (is_num a) eqn:Na; [|discriminate E]. destruct (is_num b) eqn:Nb; [|discriminate E].
      injection E as <-. destruct (num_float _ _ _ Na Ha) as [x [x' [X [X' Rx]]]]. destruct (num_float _ _ _ Nb Hb) as [y [y' [Y [Y' Ry]]]].
      cbn [binop_sem]. rewrite X, X', Y, Y'. cbn [obind]. unfold fdiv.
      rewrite <- (q_eqb _ _ Q _ _ _ _ Ry (q_refl _ _ Q (ofZ 0))). destruct (eqb y (ofZ 0)) eqn:Z0; cbn [of_res]; [reflexivity|].
      apply orel_ok. constructor. apply (q_div _ _ Q); assumption.
    + (* Pow *)
      cbn [PyInt.abin] in E. destruct b as [| |n| | | |]; try discriminate E. inversion Hb; subst.
      destruct a as [|c|z| | | |]; try discriminate E.
      * destruct n; try discriminate E. injection E as <-. inversion Ha; subst. apply orel_ok. constructor. apply pow_congr; [apply (q_refl _ _ Q)|assumption].
      * destruct n as [|n|]; try discriminate E. destruct (mixed_some _ _ E) as [-> Lim].
        inversion Ha; subst; cbn [binop_sem].
        -- apply orel_ok. constructor. apply pow_congr; [apply (q_refl _ _ Q)|assumption].
        -- assert (B : (Z.abs (z ^ Zpos n) <= c ^ Zpos n)%Z) by (rewrite Z.abs_pow; apply Z.pow_le_mono_l; lia).
           cbn [Z.leb Z.compare]. rewrite wrap_lim by lia. apply orel_ok. constructor. exact B.
        -- assert (B : (Z.abs (z ^ Zpos n) <= c ^ Zpos n)%Z) by (rewrite Z.abs_pow; apply Z.pow_le_mono_l; lia).
           cbn [Z.leb Z.compare]. rewrite wrap_lim by lia. apply orel_ok. constructor; [exact B|]. apply (pow_hom c); assumption.
      * inversion Ha; subst. cbn [binop_sem]. destruct (Z.leb 0 n); [|discriminate E].
        destruct (exact_some _ _ E) as [-> Lim]. rewrite wrap_lim by exact Lim. apply orel_ok. constructor.
Qed.
Lemma sound_usub a r v w : ausub a = Some r -> rel a v w -> orel (rel r) (usub_sem v) (usub_sem w).
Proof.
  intros E H. destruct H; try discriminate E; cbn [PyInt.ausub] in E.
  - injection E as <-. apply orel_ok. constructor. apply (q_neg _ _ Q). assumption.
  - apply mixed_some in E. destruct E as [-> _]. apply orel_ok. constructor. apply (q_neg _ _ Q). assumption.
  - apply mixed_some in E. destruct E as [-> L]. cbn [usub_sem]. rewrite wrap_lim by lia. apply orel_ok. constructor. lia.
  - apply mixed_some in E. destruct E as [-> L]. cbn [usub_sem]. rewrite wrap_lim by lia. apply orel_ok. constructor; [lia|].
    eapply (q_trans _ _ Q); [apply (h_neg _ _ Q); lia|apply (q_neg _ _ Q); assumption].
  - apply exact_some in E. destruct E as [-> L]. cbn [usub_sem]. rewrite wrap_lim by lia. apply orel_ok. constructor.
Qed.

(** Comparisons give the same boolean. *)
Lemma sound_eq a b v v' w w' : is_num a && small a = true -> is_num b && small b = true -> rel a v v' -> rel b w w' -> exists t, eq_sem v w = Ok t /\ eq_sem v' w' = Ok t.
Proof.
  intros Na Nb Ha Hb. pose proof (q_refl _ _ Q) as RR. pose proof (q_trans _ _ Q) as TT.
  apply andb_true_iff in Na. destruct Na as [Na Sa]. apply andb_true_iff in Nb. destruct Nb as [Nb Sb].
  destruct (num_cases a v v' Na Ha) as [[x [x' [-> [-> [Rx _]]]]]|[[x [bx [-> [-> [Bx Lx]]]]]|[x [bx [x' [-> [-> [Rx [Bx [Lx _]]]]]]]]]];
  destruct (num_cases b w w' Nb Hb) as [[y [y' [-> [-> [Ry _]]]]]|[[y [by_ [-> [-> [By Ly]]]]]|[y [by_ [y' [-> [-> [Ry [By [Ly _]]]]]]]]]];
  cbn [eq_sem to_float obind]; try (eexists; split; [reflexivity|]; f_equal; symmetry; apply (q_eqb _ _ Q); auto; fail).
  all: try pose proof (small_bound _ _ Sa Bx); try pose proof (small_bound _ _ Sb By); try rewrite <- (h_eqb _ _ Q) by lia;
    try (eexists; split; [reflexivity|]; f_equal; symmetry; apply (q_eqb _ _ Q); auto; fail).
Qed.
Lemma sound_lt a b v v' w w' : is_num a && small a = true -> is_num b && small b = true -> rel a v v' -> rel b w w' -> exists t, lt_sem v w = Ok t /\ lt_sem v' w' = Ok t.
Proof.
  intros Na Nb Ha Hb. pose proof (q_refl _ _ Q) as RR. pose proof (q_trans _ _ Q) as TT.
  apply andb_true_iff in Na. destruct Na as [Na Sa]. apply andb_true_iff in Nb. destruct Nb as [Nb Sb].
  destruct (num_cases a v v' Na Ha) as [[x [x' [-> [-> [Rx _]]]]]|[[x [bx [-> [-> [Bx Lx]]]]]|[x [bx [x' [-> [-> [Rx [Bx [Lx _]]]]]]]]]];
  destruct (num_cases b w w' Nb Hb) as [[y [y' [-> [-> [Ry _]]]]]|[[y [by_ [-> [-> [By Ly]]]]]|[y [by_ [y' [-> [-> [Ry [By [Ly _]]]]]]]]]];
  cbn [lt_sem to_float obind]; try (eexists; split; [reflexivity|]; f_equal; symmetry; apply (q_ltb _ _ Q); auto; fail).
  all: try pose proof (small_bound _ _ Sa Bx); try pose proof (small_bound _ _ Sb By); try rewrite <- (h_ltb _ _ Q) by lia;
    try (eexists; split; [reflexivity|]; f_equal; symmetry; apply (q_ltb _ _ Q); auto; fail).
Qed.
Lemma sound_le a b v v' w w' : is_num a && small a = true -> is_num b && small b = true -> rel a v v' -> rel b w w' -> exists t, le_sem v w = Ok t /\ le_sem v' w' = Ok t.
Proof.
  intros Na Nb Ha Hb. pose proof (q_refl _ _ Q) as RR. pose proof (q_trans _ _ Q) as TT.
  apply andb_true_iff in Na. destruct Na as [Na Sa]. apply andb_true_iff in Nb. destruct Nb as [Nb Sb].
  destruct (num_cases a v v' Na Ha) as [[x [x' [-> [-> [Rx _]]]]]|[[x [bx [-> [-> [Bx Lx]]]]]|[x [bx [x' [-> [-> [Rx [Bx [Lx _]]]]]]]]]];
  destruct (num_cases b w w' Nb Hb) as [[y [y' [-> [-> [Ry _]]]]]|[[y [by_ [-> [-> [By Ly]]]]]|[y [by_ [y' [-> [-> [Ry [By [Ly _]]]]]]]]]];
  cbn [le_sem to_float obind]; try (eexists; split; [reflexivity|]; f_equal; symmetry; apply (q_leb _ _ Q); auto; fail).
  all: try pose proof (small_bound _ _ Sa Bx); try pose proof (small_bound _ _ Sb By); try rewrite <- (h_leb _ _ Q) by lia;
    try (eexists; split; [reflexivity|]; f_equal; symmetry; apply (q_leb _ _ Q); auto; fail).
Qed.
Lemma sound_in a l v v' ws ws' : is_num a && small a = true -> forallb (fun b => is_num b && small b) l = true -> rel a v v' -> rels l ws ws' -> exists t, in_sem v ws = Ok t /\ in_sem v' ws' = Ok t.
Proof.
  intros Na Nl Ha Hl. induction Hl as [|b w w' l ws ws' Hb Hl IH].
  - exists false. auto.
  - cbn [forallb] in Nl. apply andb_true_iff in Nl. destruct Nl as [Nb Nl].
    destruct (sound_eq a b v v' w w' Na Nb Ha Hb) as [t [T T']]. cbn [in_sem]. rewrite T, T'. cbn [obind].
    destruct t; [exists true; auto|]. exact (IH Nl).
Qed.
Lemma sound_cmp o a b v v' w w' : acmp o a b = true -> rel a v v' -> rel b w w' -> exists t, cmp_sem o v w = Ok t /\ cmp_sem o v' w' = Ok t.
Proof.
  intros E Ha Hb. destruct o; cbn [PyInt.acmp cmp_sem] in *; apply andb_true_iff in E; destruct E as [Na Nb].
  - exact (sound_eq a b _ _ _ _ Na Nb Ha Hb).
  - exact (sound_lt a b _ _ _ _ Na Nb Ha Hb).
  - exact (sound_le a b _ _ _ _ Na Nb Ha Hb).
  - exact (sound_lt b a _ _ _ _ Nb Na Hb Ha).
  - destruct b; try discriminate Nb. inversion Hb; subst. eapply sound_in; eauto.
Qed.

(** Built-in functions and attributes. *)
Lemma sound_builtin f l r vs ws : abuiltin f l = Some r -> rels l vs ws -> orel (rel r) (builtin_sem f vs) (builtin_sem f ws).
Proof.
  intros E H. destruct l as [|a [|? ?]]; try discriminate E. inversion H as [|? v w ? ? ? Ha Hl]; subst. inversion Hl; subst.
  cbn [abuiltin] in E. cbn [builtin_sem]. destruct (String.eqb f "bool").
  - destruct a; try discriminate E. injection E as <-. inversion Ha; subst. apply orel_ok. constructor.
  - destruct (is_num a) eqn:Na; [|discriminate E]. destruct (num_float _ _ _ Na Ha) as [x [x' [-> [-> Rx]]]]. cbn [obind].
    cbn [existsb] in E.
    destruct (String.eqb f "np.sqrt"); [injection E as <-; apply orel_ok; constructor; apply (q_sqrt _ _ Q), Rx|].
    destruct (String.eqb f "np.log"); [injection E as <-; apply orel_ok; constructor; apply (q_log _ _ Q), Rx|].
    destruct (String.eqb f "np.arctan"); [injection E as <-; apply orel_ok; constructor; apply (q_atan _ _ Q), Rx|].
    destruct (String.eqb f "np.cos"); [injection E as <-; apply orel_ok; constructor; apply (q_cos _ _ Q), Rx|].
    destruct (String.eqb f "np.sin"); [injection E as <-; apply orel_ok; constructor; apply (q_sin _ _ Q), Rx|].
    destruct (String.eqb f "np.radians"); [injection E as <-; apply orel_ok; constructor; apply (q_mul _ _ Q); [exact Rx|apply (q_refl _ _ Q)]|discriminate E].
Qed.
Lemma sound_attribute m x r : aattribute m x = Some r -> orel (rel r) (attribute_sem m x) (attribute_sem m x).
Proof.
  unfold aattribute, attribute_sem. destruct (String.eqb m "np"); [|discriminate].
  destruct (String.eqb x "pi"); [intros [= <-]; apply orel_ok; constructor; apply (q_refl _ _ Q)|].
  destruct (String.eqb x "nan"); intros [= <-]; apply orel_ok; constructor. apply (q_refl _ _ Q).
Qed.

(** Joins. *)
Lemma aval_eqb_eq : forall a b, aval_eqb a b = true -> a = b.
Proof.
  fix IH 1. intros a b. destruct a as [|x|x| |l|m f|f]; destruct b as [|y|y| |l'|m' f'|f']; cbn [aval_eqb]; try discriminate; try reflexivity.
  - intros H. apply Z.eqb_eq in H. congruence.
  - intros H. apply Z.eqb_eq in H. congruence.
  - intros H. f_equal. revert l' H. induction l as [|a l IHl]; intros [|b l']; try discriminate; [reflexivity|].
    intros H. apply andb_true_iff in H. destruct H as [H1 H2]. f_equal; [exact (IH _ _ H1)|exact (IHl _ H2)].
  - intros H. apply andb_true_iff in H. destruct H as [H1 H2]. apply String.eqb_eq in H1, H2. congruence.
  - intros H. apply String.eqb_eq in H. congruence.
Qed.
Lemma rel_mix a v w b : is_num a = true -> (forall x, bound_of a = Some x -> (x <= b)%Z) -> rel a v w -> rel (AMix b) v w.
Proof.
  intros N B H. destruct H; try discriminate N; constructor; try assumption; try (specialize (B _ eq_refl); lia).
Qed.
Lemma sound_join a b r v w : ajoin a b = Some r -> (rel a v w -> rel r v w) /\ (rel b v w -> rel r v w).
Proof.
  unfold PyInt.ajoin. destruct (aval_eqb a b) eqn:EQ.
  - apply aval_eqb_eq in EQ. subst. intros [= ->]. auto.
  - clear EQ. intros E.
    assert (X : exists m, r = AMix m /\ is_num a = true /\ is_num b = true /\ (forall x, bound_of a = Some x -> (x <= m)%Z) /\ (forall x, bound_of b = Some x -> (x <= m)%Z)).
    { destruct a; destruct b; try discriminate E; cbn [bound_of] in E; apply mixed_some in E; destruct E as [-> _];
      eexists; (split; [reflexivity|]); (split; [reflexivity|]); (split; [reflexivity|]); cbn [bound_of]; split; intros x Hx; try discriminate Hx; injection Hx as <-; lia. }
    destruct X as [m [-> [Na [Nb [Ba Bb]]]]]. split; intros H; [exact (rel_mix a v w m Na Ba H)|exact (rel_mix b v w m Nb Bb H)].
Qed.

(** Environments. *)
Definition erel (e : aenv) (s t : @env A) : Prop :=
  forall x, match lookup x e with
            | None => lookup x s = None /\ lookup x t = None
            | Some None => True
            | Some (Some a) => exists v w, lookup x s = Some v /\ lookup x t = Some w /\ rel a v w
            end.
Lemma lookup_store {T} x y (v : T) l : lookup x (store y v l) = if String.eqb x y then Some v else lookup x l.
Proof.
  induction l as [|[z w] l IH]; cbn [store lookup].
  - destruct (String.eqb x y); reflexivity.
  - destruct (String.eqb_spec y z) as [->|N]; cbn [lookup].
    + destruct (String.eqb x z); reflexivity.
    + rewrite IH. destruct (String.eqb_spec x z) as [->|M]; [|reflexivity].
      destruct (String.eqb_spec z y); [congruence|reflexivity].
Qed.
Lemma erel_store e s t x a v w : erel e s t -> rel a v w -> erel (store x (Some a) e) (store x v s) (store x w t).
Proof.
  intros E H y. rewrite !lookup_store. destruct (String.eqb y x); [eauto|exact (E y)].
Qed.
Lemma erel_nil : erel [] [] [].
Proof. intros x. cbn. auto. Qed.
Lemma lookup_app {T} x (l m : list (string * T)) : lookup x (l ++ m)%list = match lookup x l with Some v => Some v | None => lookup x m end.
Proof. induction l as [|[y v] l IH]; cbn; [reflexivity|]. destruct (String.eqb x y); [reflexivity|exact IH]. Qed.
Lemma lookup_map {S T} (f : string -> S -> T) x l : lookup x (map (fun xa => (fst xa, f (fst xa) (snd xa))) l) = match lookup x l with Some v => Some (f x v) | None => None end.
Proof.
  induction l as [|[y v] l IH]; cbn; [reflexivity|]. destruct (String.eqb_spec x y) as [->|]; [reflexivity|exact IH].
Qed.
Lemma lookup_join x e1 e2 : lookup x (ajoin_env e1 e2) =
  match lookup x e1 with
  | Some a => Some (match a, lookup x e2 with Some a, Some (Some b) => ajoin a b | _, _ => None end)
  | None => match lookup x e2 with Some _ => Some None | None => None end
  end.
Proof.
  unfold PyInt.ajoin_env. rewrite lookup_app.
  rewrite (lookup_map (fun x a => match a, lookup x e2 with Some a, Some (Some b) => ajoin a b | _, _ => None end)).
  destruct (lookup x e1); [reflexivity|].
  rewrite (lookup_map (fun _ _ => None)). reflexivity.
Qed.
Lemma erel_join_l e1 e2 s t : erel e1 s t -> erel (ajoin_env e1 e2) s t.
Proof.
  intros E x. rewrite lookup_join. specialize (E x). destruct (lookup x e1) as [[a|]|].
  - destruct (lookup x e2) as [[b|]|]; try exact I. destruct (ajoin a b) eqn:J; [|exact I].
    destruct E as [v [w [Hv [Hw H]]]]. exists v, w. split; [exact Hv|]. split; [exact Hw|]. exact (proj1 (sound_join _ _ _ v w J) H).
  - exact I.
  - destruct (lookup x e2); [exact I|exact E].
Qed.
Lemma erel_join_r e1 e2 s t : erel e2 s t -> erel (ajoin_env e1 e2) s t.
Proof.
  intros E x. rewrite lookup_join. specialize (E x). destruct (lookup x e1) as [[a|]|].
  - destruct (lookup x e2) as [[b|]|]; try exact I. destruct (ajoin a b) eqn:J; [|exact I].
    destruct E as [v [w [Hv [Hw H]]]]. exists v, w. split; [exact Hv|]. split; [exact Hw|]. exact (proj2 (sound_join _ _ _ v w J) H).
  - exact I.
  - destruct (lookup x e2); [exact I|exact E].
Qed.
Lemma sound_store_all xs l e r vs ws s t : astore_all xs l e = Some r -> rels l vs ws -> erel e s t -> orel (erel r) (store_all xs vs s) (store_all xs ws t).
Proof.
  intros E H. revert xs e s t E. induction H as [|a v w l vs ws Ha Hl IH]; intros [|x xs] e s t E Hs; try discriminate E.
  - injection E as <-. apply orel_ok, Hs.
  - cbn [store_all astore_all] in *. eapply IH; [exact E|]. apply erel_store; assumption.
Qed.

(** Expressions. *)
Section SBody.
Variables (c : string -> string -> list V -> outcome V) (g : string -> outcome V).
Variables (ac : string -> string -> list aval -> option aval) (ag : string -> option aval).
Hypothesis Hc : forall m f l r vs ws, ac m f l = Some r -> rels l vs ws -> orel (rel r) (c m f vs) (c m f ws).
Hypothesis Hg : forall x r, ag x = Some r -> orel (rel r) (g x) (g x).
Lemma sound_eval : forall (e : expr) ae s t r, aeval ac ag ae e = Some r -> erel ae s t -> orel (rel r) (eval c g s e) (eval c g t e).
Proof.
  fix IH 1. intros e ae s t r E Hs. destruct e as [x|z|n d|m x|l o r0|e|l rest|o es|tst bd els|f args|es].
  - cbn in *. specialize (Hs x). destruct (lookup x ae) as [[a|]|].
    + injection E as <-. destruct Hs as [v [w [-> [-> H]]]]. apply orel_ok, H.
    + discriminate E.
    + destruct Hs as [-> ->]. apply Hg, E.
  - cbn in *. apply exact_some in E. destruct E as [-> _]. apply orel_ok. constructor.
  - cbn in *. injection E as <-. apply orel_ok. constructor. apply (q_refl _ _ Q).
  - cbn in *. apply sound_attribute, E.
  - cbn in *. apply abind_some in E. destruct E as [a [Ea E]]. apply abind_some in E. destruct E as [b [Eb E]].
    eapply orel_bind; [exact (IH l _ _ _ _ Ea Hs)|]. intros v v' Hv. eapply orel_bind; [exact (IH r0 _ _ _ _ Eb Hs)|]. intros w w' Hw.
    exact (sound_bin _ _ _ _ _ _ _ _ E Hv Hw).
  - cbn in *. apply abind_some in E. destruct E as [a [Ea E]]. eapply orel_bind; [exact (IH e _ _ _ _ Ea Hs)|]. intros v v' Hv.
    exact (sound_usub _ _ _ _ E Hv).
  - cbn in *. apply abind_some in E. destruct E as [a [Ea E]]. eapply orel_bind; [exact (IH l _ _ _ _ Ea Hs)|]. clear Ea.
    revert a E. induction rest as [|[o e1] rest IHr]; intros a E v v' Hv.
    + injection E as <-. apply orel_ok. constructor.
    + apply abind_some in E. destruct E as [b [Eb E]]. eapply orel_bind; [exact (IH e1 _ _ _ _ Eb Hs)|]. intros w w' Hw.
      destruct (acmp o a b) eqn:EQ; [|discriminate E]. destruct (sound_cmp _ _ _ _ _ _ _ EQ Hv Hw) as [tt [-> ->]]. cbn [obind].
      destruct tt; [exact (IHr b E _ _ Hw)|].
      assert (R : r = ABool).
      { clear -E. revert b E. induction rest as [|[o e1] rest IHr]; intros b E; [injection E as <-; reflexivity|].
        apply abind_some in E. destruct E as [b' [_ E]]. destruct (acmp o b b'); [exact (IHr _ E)|discriminate E]. }
      subst. apply orel_ok. constructor.
  - cbn in *. induction es as [|e es IHe].
    + injection E as <-. apply orel_ok. constructor.
    + apply abind_some in E. destruct E as [a [Ea E]]. destruct a; try discriminate E.
      eapply orel_bind; [exact (IH e _ _ _ _ Ea Hs)|]. intros v v' Hv. inversion Hv; subst. cbn [to_bool obind].
      assert (R : r = ABool).
      { clear -E. induction es as [|e1 es IHr]; [injection E as <-; reflexivity|].
        apply abind_some in E. destruct E as [b' [_ E]]. destruct b'; try discriminate E. exact (IHr E). }
      destruct o; destruct b; try exact (IHe E); subst; apply orel_ok; constructor.
  - cbn in *. apply abind_some in E. destruct E as [a [Ea E]]. destruct a; try discriminate E.
    apply abind_some in E. destruct E as [x [Ex E]]. apply abind_some in E. destruct E as [y [Ey E]].
    eapply orel_bind; [exact (IH tst _ _ _ _ Ea Hs)|]. intros v v' Hv. inversion Hv; subst. cbn [to_bool obind].
    destruct b.
    + generalize (IH bd _ _ _ _ Ex Hs). destruct (eval c g t bd) as [w|ex|]; cbn [orel]; auto. intros [u [-> H]]. exists u. split; [reflexivity|].
      exact (proj1 (sound_join _ _ _ u w E) H).
    + generalize (IH els _ _ _ _ Ey Hs). destruct (eval c g t els) as [w|ex|]; cbn [orel]; auto. intros [u [-> H]]. exists u. split; [reflexivity|].
      exact (proj2 (sound_join _ _ _ u w E) H).
  - cbn in *. apply abind_some in E. destruct E as [a [Ea E]]. apply abind_some in E. destruct E as [l [El E]].
    eapply orel_bind; [exact (IH f _ _ _ _ Ea Hs)|]. intros v v' Hv.
    assert (L : orel (rels l) ((fix eval_list (es : list expr) : outcome (list V) :=
       match es with [] => Ok [] | e :: es' => do v <- eval c g s e; do vs <- eval_list es'; Ok (v :: vs) end) args)
       ((fix eval_list (es : list expr) : outcome (list V) :=
       match es with [] => Ok [] | e :: es' => do v <- eval c g t e; do vs <- eval_list es'; Ok (v :: vs) end) args)).
    { clear E. revert l El. induction args as [|e args IHa]; intros l El.
      - injection El as <-. apply orel_ok. constructor.
      - apply abind_some in El. destruct El as [b [Eb El]]. apply abind_some in El. destruct El as [l' [El' El]]. injection El as <-.
        eapply orel_bind; [exact (IH e _ _ _ _ Eb Hs)|]. intros u u' Hu. eapply orel_bind; [exact (IHa _ El')|]. intros us us' Hus.
        apply orel_ok. constructor; assumption. }
    eapply orel_bind; [exact L|]. intros vs ws Hvs. destruct a; try discriminate E; inversion Hv; subst; cbn [aapply apply] in *.
    + exact (Hc _ _ _ _ _ _ E Hvs).
    + exact (sound_builtin _ _ _ _ _ E Hvs).
  - cbn in *. apply abind_some in E. destruct E as [l [El E]]. injection E as <-.
    assert (L : orel (rels l) ((fix eval_list (es : list expr) : outcome (list V) :=
       match es with [] => Ok [] | e :: es' => do v <- eval c g s e; do vs <- eval_list es'; Ok (v :: vs) end) es)
       ((fix eval_list (es : list expr) : outcome (list V) :=
       match es with [] => Ok [] | e :: es' => do v <- eval c g t e; do vs <- eval_list es'; Ok (v :: vs) end) es)).
    { revert l El. induction es as [|e args IHa]; intros l El.
      - injection El as <-. apply orel_ok. constructor.
      - apply abind_some in El. destruct El as [b [Eb El]]. apply abind_some in El. destruct El as [l' [El' El]]. injection El as <-.
        eapply orel_bind; [exact (IH e _ _ _ _ Eb Hs)|]. intros u u' Hu. eapply orel_bind; [exact (IHa _ El')|]. intros us us' Hus.
        apply orel_ok. constructor; assumption. }
    eapply orel_bind; [exact L|]. intros vs ws Hvs. apply orel_ok. constructor. exact Hvs.
Qed.
Lemma sound_iterate e ae s t l : aiterate ac ag ae e = Some l -> erel ae s t -> orel (rels l) (iterate c g s e) (iterate c g t e).
Proof.
  intros E Hs. destruct e as [| | | | | | | | |f args|]; try discriminate E. destruct f as [f| | | | | | | | | |]; try discriminate E.
  destruct args as [|n [|? ?]]; try discriminate E. cbn [PyInt.aiterate iterate] in *. destruct (String.eqb f "range"); [|discriminate E].
  apply abind_some in E. destruct E as [a [Ea E]]. destruct a; try discriminate E. injection E as <-.
  eapply orel_bind; [exact (sound_eval _ _ _ _ _ Ea Hs)|]. intros v w H. inversion H; subst. apply orel_ok.
  generalize 0%nat. induction (Z.to_nat z) as [|k IH]; intros i; cbn; constructor; [constructor|apply IH].
Qed.

(** Statements. *)
Definition frel (f : aflow) (x y : @flow A) : Prop :=
  match x, y with
  | Running s, Running t => exists e, fst f = Some e /\ erel e s t
  | Returned v, Returned w => exists a, snd f = Some a /\ rel a v w
  | _, _ => False
  end.
Lemma frel_join f h r x y : ajoin_flow f h = Some r -> (frel f x y -> frel r x y) /\ (frel h x y -> frel r x y).
Proof.
  unfold PyInt.ajoin_flow. intros E. apply abind_some in E. destruct E as [r2 [E2 E]]. injection E as <-.
  destruct f as [f1 f2], h as [h1 h2]. cbn [fst snd] in *.
  split; (destruct x, y; cbn [frel fst snd]; try (intros []; fail)).
  - intros [e [-> H]]. destruct h1 as [h1|]; eexists; (split; [reflexivity|]); [apply erel_join_l|]; exact H.
  - intros [a [-> H]]. destruct h2 as [h2|].
    + apply abind_some in E2. destruct E2 as [b [J E2]]. injection E2 as <-. exists b. split; [reflexivity|]. exact (proj1 (sound_join _ _ _ _ _ J) H).
    + injection E2 as <-. eauto.
  - intros [e [-> H]]. destruct f1 as [f1|]; eexists; (split; [reflexivity|]); [apply erel_join_r|]; exact H.
  - intros [a [-> H]]. destruct f2 as [f2|].
    + apply abind_some in E2. destruct E2 as [b [J E2]]. injection E2 as <-. exists b. split; [reflexivity|]. exact (proj2 (sound_join _ _ _ _ _ J) H).
    + injection E2 as <-. eauto.
Qed.
Lemma orel_weaken {S T} (R R' : S -> T -> Prop) o1 o2 : (forall v w, R v w -> R' v w) -> orel R o1 o2 -> orel R' o1 o2.
Proof. intros W. destruct o2; cbn [orel]; auto. intros [v [-> H]]. eauto. Qed.
Lemma sound_seq f k r k1 k2 x y : aseq f k = Some r -> frel f x y ->
  (forall e s t h, k e = Some h -> erel e s t -> orel (frel h) (k1 s) (k2 t)) ->
  orel (frel r) (match x with Running s => k1 s | Returned v => Ok (Returned v) end)
                (match y with Running t => k2 t | Returned w => Ok (Returned w) end).
Proof.
  intros E H K. destruct f as [[e|] f2]; unfold PyInt.aseq in E; cbn [fst snd] in E.
  - apply abind_some in E. destruct E as [h [Eh E]]. destruct x, y; try (destruct H; fail).
    + destruct H as [e' [EQ H]]. injection EQ as <-. eapply orel_weaken; [|exact (K _ _ _ _ Eh H)]. intros v w. exact (proj2 (frel_join _ _ _ _ _ E)).
    + apply orel_ok. apply (proj1 (frel_join _ _ _ _ _ E)). exact H.
  - injection E as <-. destruct x, y; try (destruct H; fail).
    + destruct H as [e' [EQ _]]. discriminate EQ.
    + apply orel_ok. exact H.
Qed.
Lemma sound_exec : forall (i : stmt) ae s t r, aexec ac ag ae i = Some r -> erel ae s t -> orel (frel r) (exec c g s i) (exec c g t i).
Proof.
  fix IH 1. intros i.
  assert (BLK : forall cs : list stmt, (forall j, List.In j cs -> forall ae s t r, aexec ac ag ae j = Some r -> erel ae s t -> orel (frel r) (exec c g s j) (exec c g t j)) ->
     forall ae s t r, aexec_block ac ag ae cs = Some r -> erel ae s t -> orel (frel r) (exec_block c g s cs) (exec_block c g t cs)).
  { induction cs as [|j cs IHc]; intros Hj ae s t r E Hs.
    - injection E as <-. apply orel_ok. cbn. eauto.
    - cbn [PyInt.aexec_block exec_block] in *. apply abind_some in E. destruct E as [f [Ef E]].
      eapply orel_bind; [exact (Hj j (or_introl eq_refl) _ _ _ _ Ef Hs)|]. intros x y Hxy.
      refine (sound_seq f _ r _ _ x y E Hxy _). intros e' s' t' h Eh He. apply (IHc (fun j' h' => Hj j' (or_intror h')) _ _ _ _ Eh He). }
  assert (ALL : forall cs : list stmt, (fix all (cs : list stmt) : Prop := match cs with [] => True | j :: cs' =>
      (forall ae s t r, aexec ac ag ae j = Some r -> erel ae s t -> orel (frel r) (exec c g s j) (exec c g t j)) /\ all cs' end) cs ->
     forall j, List.In j cs -> forall ae s t r, aexec ac ag ae j = Some r -> erel ae s t -> orel (frel r) (exec c g s j) (exec c g t j)).
  { induction cs as [|j cs IHc]; intros H j' [].
    - subst. exact (proj1 H).
    - exact (IHc (proj2 H) j' H0). }
  intros ae s t r E Hs. destruct i as [xs e|x o e|tst a b|x it cs|e].
  - assert (T : forall v w l, rel (ATuple l) v w -> forall s', astore_all xs l ae = Some s' ->
        orel (frel (Some s', None)) (match v with VTuple vs => do s'' <- store_all xs vs s; Ok (Running s'') | _ => Stuck end)
                                    (match w with VTuple vs => do s'' <- store_all xs vs t; Ok (Running s'') | _ => Stuck end)).
    { intros v w l H s' Es. inversion H; subst. eapply orel_bind; [eapply sound_store_all; eassumption|]. intros s1 t1 Hst. apply orel_ok. cbn. eauto. }
    destruct xs as [|x [|x' xs]].
    + cbn [PyInt.aexec exec] in *. apply abind_some in E. destruct E as [v [Ev E]]. eapply orel_bind; [exact (sound_eval _ _ _ _ _ Ev Hs)|]. intros u w H.
      destruct v; try discriminate E. apply abind_some in E. destruct E as [s' [Es E]]. injection E as <-. exact (T _ _ _ H _ Es).
    + cbn [PyInt.aexec exec] in *. apply abind_some in E. destruct E as [v [Ev E]]. injection E as <-. eapply orel_bind; [exact (sound_eval _ _ _ _ _ Ev Hs)|]. intros u w H.
      apply orel_ok. cbn. eexists. split; [reflexivity|]. apply erel_store; assumption.
    + cbn [PyInt.aexec exec] in *. apply abind_some in E. destruct E as [v [Ev E]]. eapply orel_bind; [exact (sound_eval _ _ _ _ _ Ev Hs)|]. intros u w H.
      destruct v; try discriminate E. apply abind_some in E. destruct E as [s' [Es E]]. injection E as <-. exact (T _ _ _ H _ Es).
  - cbn [PyInt.aexec exec] in *. pose proof (Hs x) as Hx. destruct (lookup x ae) as [[a|]|]; try discriminate E.
    destruct Hx as [v [w [-> [-> H]]]]. apply abind_some in E. destruct E as [b [Eb E]]. apply abind_some in E. destruct E as [d [Ed E]]. injection E as <-.
    eapply orel_bind; [exact (sound_eval _ _ _ _ _ Eb Hs)|]. intros u u' Hu. eapply orel_bind; [exact (sound_bin _ _ _ _ _ _ _ _ Ed H Hu)|]. intros q q' Hq.
    apply orel_ok. cbn. eexists. split; [reflexivity|]. apply erel_store; assumption.
  - assert (Ha : forall ae s t r, aexec_block ac ag ae a = Some r -> erel ae s t -> orel (frel r) (exec_block c g s a) (exec_block c g t a)).
    { apply BLK, ALL. clear -IH. induction a as [|j a IHa]; [exact I|]. split; [exact (IH j)|exact IHa]. }
    assert (Hb : forall ae s t r, aexec_block ac ag ae b = Some r -> erel ae s t -> orel (frel r) (exec_block c g s b) (exec_block c g t b)).
    { apply BLK, ALL. clear -IH. induction b as [|j b IHb]; [exact I|]. split; [exact (IH j)|exact IHb]. }
    change (aexec ac ag ae (If tst a b)) with (dop v <- aeval ac ag ae tst;
      match v with ABool => dop f <- aexec_block ac ag ae a; dop g' <- aexec_block ac ag ae b; ajoin_flow f g' | _ => None end) in E.
    change (orel (frel r) (do v <- eval c g s tst; do q <- to_bool v; if q then exec_block c g s a else exec_block c g s b)
                          (do v <- eval c g t tst; do q <- to_bool v; if q then exec_block c g t a else exec_block c g t b)).
    apply abind_some in E. destruct E as [v [Ev E]]. destruct v; try discriminate E.
    apply abind_some in E. destruct E as [f [Ef E]]. apply abind_some in E. destruct E as [h [Eh E]].
    eapply orel_bind; [exact (sound_eval _ _ _ _ _ Ev Hs)|]. intros u w H. inversion H; subst. cbn [to_bool obind]. destruct b0.
    + eapply orel_weaken; [|exact (Ha _ _ _ _ Ef Hs)]. intros x y. exact (proj1 (frel_join _ _ _ _ _ E)).
    + eapply orel_weaken; [|exact (Hb _ _ _ _ Eh Hs)]. intros x y. exact (proj2 (frel_join _ _ _ _ _ E)).
  - assert (Hcs : forall ae s t r, aexec_block ac ag ae cs = Some r -> erel ae s t -> orel (frel r) (exec_block c g s cs) (exec_block c g t cs)).
    { apply BLK, ALL. clear -IH. induction cs as [|j a IHa]; [exact I|]. split; [exact (IH j)|exact IHa]. }
    change (aexec ac ag ae (For x it cs)) with (dop vs <- aiterate ac ag ae it;
      (fix aloop (vs : list aval) (s : aenv) : option aflow :=
         match vs with
         | [] => Some (Some s, None)
         | v :: vs' => dop f <- aexec_block ac ag (store x (Some v) s) cs; aseq f (fun s' => aloop vs' s')
         end) vs ae) in E.
    apply abind_some in E. destruct E as [l [El E]].
    change (orel (frel r)
     (do vs <- iterate c g s it;
      (fix loop (vs : list V) (s : env) : outcome flow :=
         match vs with
         | [] => Ok (Running s)
         | v :: vs' => do f <- exec_block c g (store x v s) cs; match f with Running s' => loop vs' s' | Returned v => Ok (Returned v) end
         end) vs s)
     (do vs <- iterate c g t it;
      (fix loop (vs : list V) (s : env) : outcome flow :=
         match vs with
         | [] => Ok (Running s)
         | v :: vs' => do f <- exec_block c g (store x v s) cs; match f with Running s' => loop vs' s' | Returned v => Ok (Returned v) end
         end) vs t)).
    eapply orel_bind; [exact (sound_iterate _ _ _ _ _ El Hs)|]. intros vs ws Hv. clear El.
    revert ae s t r E Hs. induction Hv as [|a v w l vs ws Ha Hl IHl]; intros ae s t r E Hs.
    + injection E as <-. apply orel_ok. cbn. eauto.
    + apply abind_some in E. destruct E as [f [Ef E]].
      eapply orel_bind; [eapply Hcs; [exact Ef|apply erel_store; assumption]|]. intros p q Hpq.
      exact (sound_seq f _ r _ _ p q E Hpq (fun e' s' t' h Eh He => IHl _ _ _ _ Eh He)).
  - cbn [PyInt.aexec exec] in *. apply abind_some in E. destruct E as [v [Ev E]]. injection E as <-.
    eapply orel_bind; [exact (sound_eval _ _ _ _ _ Ev Hs)|]. intros u w H. apply orel_ok. cbn. eauto.
Qed.
Lemma sound_block : forall cs ae s t r, aexec_block ac ag ae cs = Some r -> erel ae s t -> orel (frel r) (exec_block c g s cs) (exec_block c g t cs).
Proof.
  induction cs as [|j cs IHc]; intros ae s t r E Hs.
  - injection E as <-. apply orel_ok. cbn. eauto.
  - cbn [PyInt.aexec_block exec_block] in *. apply abind_some in E. destruct E as [f [Ef E]].
    eapply orel_bind; [exact (sound_exec j _ _ _ _ Ef Hs)|]. intros x y Hxy.
    exact (sound_seq f _ r _ _ x y E Hxy (fun e' s' t' h Eh He => IHc _ _ _ _ Eh He)).
Qed.
Lemma sound_call_body d l r vs ws : acall_body ac ag d l = Some r -> rels l vs ws -> orel (rel r) (call_body c g d vs) (call_body c g d ws).
Proof.
  unfold PyInt.acall_body, call_body. intros E H. apply abind_some in E. destruct E as [e [Ee E]]. apply abind_some in E. destruct E as [f [Ef E]].
  eapply orel_bind; [exact (sound_store_all _ _ _ _ _ _ _ _ Ee H erel_nil)|]. intros s t Hs.
  eapply orel_bind; [exact (sound_block _ _ _ _ _ Ef Hs)|]. intros x y Hxy.
  destruct f as [[?|] [a|]]; try discriminate E. injection E as <-.
  destruct x, y; try (destruct Hxy; fail).
  - destruct Hxy as [? [EQ _]]. discriminate EQ.
  - destruct Hxy as [a' [EQ R]]. cbn in EQ. injection EQ as <-. apply orel_ok. pose proof (q_refl _ _ Q). destruct R; cbn [aunify unify]; constructor; auto.
Qed.
End SBody.

Section SProgram.
Variable program : list pymodule.
Lemma sound_resolve depth m x r : aresolve program depth m x = Some r -> orel (rel r) (@resolve A program depth m x) (@resolve A program depth m x).
Proof.
  revert m. induction depth as [|depth IH]; intros m; cbn [PyInt.aresolve resolve];
  (destruct (find_module m program) as [d|]; [|discriminate]);
  (destruct (find_fun x (funs d)); [intros [= <-]; apply orel_ok; constructor|]);
  (destruct (lookup x (consts d)) as [e|]; [intros E; eapply sound_eval; [| |exact E|exact erel_nil]; discriminate|]);
  (destruct (find_import x (imports d)); [|discriminate]).
  - discriminate.
  - apply IH.
Qed.
Lemma sound_global m x r : aglobal_of program m x = Some r -> orel (rel r) (@global_of A program m x) (@global_of A program m x).
Proof.
  unfold PyInt.aglobal_of, global_of. destruct (String.eqb x "bool"); [intros [= <-]; apply orel_ok; constructor|apply sound_resolve].
Qed.
Lemma sound_call fuel : forall m f l r vs ws, acall program fuel m f l = Some r -> rels l vs ws -> orel (rel r) (call program fuel m f vs) (call program fuel m f ws).
Proof.
  induction fuel as [|fuel IH]; intros m f l r vs ws E H; [discriminate E|]. cbn [PyInt.acall call] in *.
  destruct (find_module m program) as [d|]; [|discriminate E]. destruct (find_fun f (funs d)) as [fd|]; [|discriminate E].
  eapply sound_call_body; [exact IH|apply sound_global|exact E|exact H].
Qed.
Theorem sound_python_call m f l r vs ws : apython_call program m f l = Some r -> rels l vs ws -> orel (rel r) (python_call program m f vs) (python_call program m f ws).
Proof.
  unfold PyInt.apython_call, python_call. intros E H. apply abind_some in E. destruct E as [a [Ea E]].
  eapply orel_bind; [exact (sound_resolve _ _ _ _ Ea)|]. intros v w Hv. destruct a; try discriminate E. inversion Hv; subst.
  exact (sound_call _ _ _ _ _ _ _ E H).
Qed.
End SProgram.
End Sound.
