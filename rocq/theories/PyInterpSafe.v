(** * A static analysis of interpreted runs, and its soundness

    The source is run on types that record which floats are NumPy floats (or nonzero, or of
    bounded size) and how large ints are.  If that succeeds, the interpreted run ends in a value of the
    resulting type; or in ZeroDivisionError, unless [no_zero_division strict], in which case every
    division must have a NumPy operand or a divisor known not to be zero; or in OverflowError,
    unless [no_overflow strict], in which case every power must have a NumPy base or a base of
    bounded size. *)
From Coq Require Import ZArith List String Bool Lia.
From Verif Require Import Arith PySyntax PySemantics PyInt PyInterp PyInterpSim.
Import ListNotations.
Local Open Scope string_scope.

Inductive ty : Type :=
| TFloat (numpy nonzero : bool) (size : option Z)
    (* a float; a NumPy one if [numpy], not zero if [nonzero], of size at most 2^k if [size] is [Some k] *)
| TNum (b : Z)                    (* a float, or an int of size at most [b] *)
| TExact (z : Z)
| TBool
| TTuple (l : list ty)
| TFun (m f : string)
| TBuiltin (f : string).

Definition tnum (a : ty) : bool := match a with TFloat _ _ _ | TNum _ | TExact _ => true | _ => false end.
Definition tnumpy (a : ty) : bool := match a with TFloat n _ _ => n | _ => false end.
Definition tnonzero (a : ty) : bool := match a with TFloat _ z _ => z | TExact z => negb (Z.eqb z 0) | _ => false end.
Definition tbound (a : ty) : option Z := match a with TNum b => Some b | TExact z => Some (Z.abs z) | _ => None end.
Definition int_limit : Z := (2 ^ 53)%Z.
Definition tmixed (b : Z) : option ty := if Z.ltb b int_limit then Some (TNum b) else None.
Definition texact (z : Z) : option ty := if Z.ltb (Z.abs z) int_limit then Some (TExact z) else None.
Definition tplain (n : bool) : ty := TFloat n false None.
Definition size_eqb (a b : option Z) : bool := match a, b with Some x, Some y => Z.eqb x y | None, None => true | _, _ => false end.
Fixpoint ty_eqb (a b : ty) : bool :=
  let fix eqs (l m : list ty) : bool :=
    match l, m with [], [] => true | x :: l', y :: m' => ty_eqb x y && eqs l' m' | _, _ => false end in
  match a, b with
  | TBool, TBool => true
  | TFloat n z k, TFloat n' z' k' => Bool.eqb n n' && Bool.eqb z z' && size_eqb k k'
  | TNum x, TNum y | TExact x, TExact y => Z.eqb x y
  | TTuple l, TTuple m => eqs l m
  | TFun m f, TFun m' f' => String.eqb m m' && String.eqb f f'
  | TBuiltin f, TBuiltin f' => String.eqb f f'
  | _, _ => false
  end.
Definition tbound0 (a : ty) : Z := match tbound a with Some b => b | None => 0%Z end.
Definition tjoin1 (a b : ty) : option ty :=
  if ty_eqb a b then Some a
  else match a, b with
       | TFloat n z _, TFloat n' z' _ => Some (TFloat (n && n') (z && z') None)
       | _, _ => if tnum a && tnum b then tmixed (Z.max (tbound0 a) (tbound0 b)) else None
       end.
Fixpoint tjoin_list (l m : list ty) : option (list ty) :=
  match l, m with
  | [], [] => Some []
  | a :: l', b :: m' => match tjoin1 a b, tjoin_list l' m' with Some r, Some rs => Some (r :: rs) | _, _ => None end
  | _, _ => None
  end.
Definition tjoin (a b : ty) : option ty :=
  match a, b with
  | TTuple l, TTuple m => match tjoin_list l m with Some rs => Some (TTuple rs) | None => None end
  | _, _ => tjoin1 a b
  end.
Definition tcmp (o : cmpop) (a b : ty) : bool :=
  match o with
  | In => tnum a && match b with TTuple l => forallb tnum l | _ => false end
  | _ => tnum a && tnum b
  end.
Definition tbuiltin (f : string) (args : list ty) : option ty :=
  match args with
  | [v] =>
      if String.eqb f "bool" then match v with TBool => Some TBool | _ => None end
      else if tnum v then
        if existsb (String.eqb f) ["np.sqrt"; "np.log"; "np.arctan"; "np.cos"; "np.sin"; "np.radians"] then Some (tplain true) else None
      else None
  | _ => None
  end.
Definition tattribute (m x : string) : option ty :=
  if String.eqb m "np" then
    if String.eqb x "pi" then Some (TFloat false true None)
    else if String.eqb x "nan" then Some (tplain false)
    else Some (TBuiltin ("np." ++ x))
  else None.
Definition tenv := list (string * option ty).
Fixpoint tstore_all (xs : list string) (vs : list ty) (e : tenv) : option tenv :=
  match xs, vs with
  | [], [] => Some e
  | x :: xs', v :: vs' => tstore_all xs' vs' (store x (Some v) e)
  | _, _ => None
  end.
Definition tjoin_env (e1 e2 : tenv) : tenv :=
  (map (fun xa => (fst xa, match snd xa, lookup (fst xa) e2 with Some a, Some (Some b) => tjoin a b | _, _ => None end)) e1
  ++ map (fun xa => (fst xa, None)) e2)%list.
Definition tflow : Type := option tenv * option ty.
Definition tjoin_flow (f g : tflow) : option tflow :=
  dop r <- match snd f, snd g with
           | None, r | r, None => Some r
           | Some a, Some b => dop c <- tjoin a b; Some (Some c)
           end;
  Some (match fst f, fst g with None, s | s, None => s | Some s, Some t => Some (tjoin_env s t) end, r).

(** Size of a difference: the exponent grows by one, up to the largest double. *)
Definition tsize (o : binop) (a b : ty) : option Z :=
  match o, a, b with
  | Sub, TFloat _ _ (Some j), TFloat _ _ (Some k) => if Z.ltb (Z.max j k + 1) 1024 then Some (Z.max j k + 1)%Z else None
  | _, _, _ => None
  end.
Definition tpow_ok (n : bool) (k : option Z) (p : positive) : bool :=
  n || match k with Some k => Z.leb 0 k && Z.leb (k * Zpos p) 1022 | None => false end.
Record checks : Type := { no_zero_division : bool; no_overflow : bool }.
Section Typing.
Variable strict : checks.
Definition tbin (o : binop) (a b : ty) : option ty :=
  match o with
  | Div =>
      if tnum a && tnum b then
        if negb (no_zero_division strict) || tnumpy a || tnumpy b || tnonzero b then Some (tplain (tnumpy a || tnumpy b)) else None
      else None
  | Pow =>
      match b with
      | TExact n =>
          match a with
          | TExact z => if Z.leb 0 n then texact (z ^ n) else None
          | TFloat np _ k => match n with Zpos p => if negb (no_overflow strict) || tpow_ok np k p then Some (tplain np) else None | _ => None end
          | _ => None
          end
      | _ => None
      end
  | _ =>
      match a, b with
      | TExact x, TExact y => texact (match o with Add => x + y | Sub => x - y | _ => x * y end)
      | _, _ =>
          match tbound a, tbound b with
          | Some x, Some y => tmixed (match o with Mult => x * y | _ => x + y end)
          | _, _ => if tnum a && tnum b then Some (TFloat (tnumpy a || tnumpy b) false (tsize o a b)) else None
          end
      end
  end%Z.
Definition tusub (a : ty) : option ty :=
  match a with TFloat n _ _ => Some (tplain n) | TNum b => tmixed b | TExact z => texact (- z) | _ => None end.
Section TBody.
Variable tcall : string -> string -> list ty -> option ty.
Variable tglobal : string -> option ty.
Definition tapply (f : ty) (args : list ty) : option ty :=
  match f with TFun m f => tcall m f args | TBuiltin f => tbuiltin f args | _ => None end.
Section Lists.
Variable ev : expr -> option ty.
Fixpoint tlist (es : list expr) : option (list ty) :=
  match es with
  | [] => Some []
  | e :: es' => dop v <- ev e; dop vs <- tlist es'; Some (v :: vs)
  end.
Fixpoint tchain (v : ty) (rest : list (cmpop * expr)) : option ty :=
  match rest with
  | [] => Some TBool
  | (o, r) :: rest' => dop w <- ev r; if tcmp o v w then tchain w rest' else None
  end.
Fixpoint tbools (es : list expr) : option ty :=
  match es with
  | [] => Some TBool
  | e :: es' => dop v <- ev e; match v with TBool => tbools es' | _ => None end
  end.
End Lists.
Fixpoint teval (s : tenv) (e : expr) {struct e} : option ty :=
  match e with
  | Name x => match lookup x s with Some v => v | None => tglobal x end
  | Int z => texact z
  | Float n d => Some (tplain false)
  | Attribute m x => tattribute m x
  | BinOp l o r => dop v <- teval s l; dop w <- teval s r; tbin o v w
  | USub e => dop v <- teval s e; tusub v
  | Compare l rest => dop v <- teval s l; tchain (teval s) v rest
  | BoolOp o es => tbools (teval s) es
  | IfExp c a b =>
      dop v <- teval s c;
      match v with TBool => dop x <- teval s a; dop y <- teval s b; tjoin x y | _ => None end
  | Call f args => dop g <- teval s f; dop vs <- tlist (teval s) args; tapply g vs
  | Tuple es => dop vs <- tlist (teval s) es; Some (TTuple vs)
  end.
Definition titerate (s : tenv) (e : expr) : option (list ty) :=
  match e with
  | Call (Name f) [n] =>
      if String.eqb f "range" then
        dop v <- teval s n;
        match v with
        | TExact z => Some (map (fun i => TExact (Z.of_nat i)) (seq 0 (Z.to_nat z)))
        | _ => None
        end
      else None
  | _ => None
  end.
Definition tseq (f : tflow) (k : tenv -> option tflow) : option tflow :=
  match fst f with
  | None => Some f
  | Some s => dop g <- k s; tjoin_flow (None, snd f) g
  end.
Section Stmts.
Variable ex : tenv -> stmt -> option tflow.
Fixpoint tblock (s : tenv) (cs : list stmt) : option tflow :=
  match cs with
  | [] => Some (Some s, None)
  | c :: cs' => dop f <- ex s c; tseq f (fun s' => tblock s' cs')
  end.
End Stmts.
Fixpoint tloop (bl : tenv -> option tflow) (x : string) (vs : list ty) (s : tenv) : option tflow :=
  match vs with
  | [] => Some (Some s, None)
  | v :: vs' => dop f <- bl (store x (Some v) s); tseq f (fun s' => tloop bl x vs' s')
  end.
Fixpoint texec (s : tenv) (c : stmt) {struct c} : option tflow :=
  match c with
  | Assign [x] e => dop v <- teval s e; Some (Some (store x (Some v) s), None)
  | Assign xs e =>
      dop v <- teval s e;
      match v with TTuple vs => dop s' <- tstore_all xs vs s; Some (Some s', None) | _ => None end
  | AugAssign x o e =>
      match lookup x s with
      | Some (Some v) => dop w <- teval s e; dop r <- tbin o v w; Some (Some (store x (Some r) s), None)
      | _ => None
      end
  | If c a b =>
      dop v <- teval s c;
      match v with TBool => dop f <- tblock texec s a; dop g <- tblock texec s b; tjoin_flow f g | _ => None end
  | For x it cs => dop vs <- titerate s it; tloop (fun s => tblock texec s cs) x vs s
  | Return e => dop v <- teval s e; Some (None, Some v)
  end.
Definition tcall_body (d : fundef) (args : list ty) : option ty :=
  dop s <- tstore_all (params d) args [];
  dop f <- tblock texec s (body d);
  match f with (None, Some a) => Some a | _ => None end.
End TBody.
Section TProgram.
Variable program : list pymodule.
Fixpoint tresolve (depth : nat) (m x : string) : option ty :=
  match find_module m program with
  | None => None
  | Some d =>
      match find_fun x (funs d) with
      | Some _ => Some (TFun m x)
      | None =>
          match lookup x (consts d) with
          | Some e => teval (fun _ _ _ => None) (fun _ => None) [] e
          | None =>
              match find_import x (imports d), depth with
              | Some m', S depth' => tresolve depth' m' x
              | _, _ => None
              end
          end
      end
  end.
Definition tglobal_of (m x : string) : option ty :=
  if String.eqb x "bool" then Some (TBuiltin "bool") else tresolve 5 m x.
Fixpoint tcall (fuel : nat) (m f : string) (args : list ty) : option ty :=
  match fuel with
  | O => None
  | S fuel' =>
      match find_module m program with
      | None => None
      | Some d =>
          match find_fun f (funs d) with
          | None => None
          | Some fd => tcall_body (tcall fuel') (tglobal_of m) fd args
          end
      end
  end.
Definition tpython_call (m f : string) (args : list ty) : option ty :=
  dop v <- tresolve 5 m f;
  match v with TFun m' f' => tcall 10 m' f' args | _ => None end.
End TProgram.
End Typing.

Section Sound.
Context {A : arith}.
Hypothesis Hofz : forall z, (Z.abs z < int_limit)%Z -> @eqb A (ofZ z) (ofZ 0) = Z.eqb z 0.
Hypothesis Hpi : @eqb A c_pi (ofZ 0) = false.
Variable P : platform A.
Variable strict : checks.
(** [small k x]: the size of [x] is at most 2^k. *)
Variable small : Z -> A -> Prop.
Hypothesis small_sub : forall j k x y, small j x -> small k y -> (Z.max j k + 1 < 1024)%Z -> small (Z.max j k + 1) (sub x y).
Hypothesis small_pow : forall k x p, small k x -> (0 <= k)%Z -> (k * Zpos p <= 1022)%Z -> pow_overflows P x p = false.
Local Notation W := (pyvalue A).

Inductive has : ty -> W -> Prop :=
| H_float n z k n' x : (n = true -> n' = true) -> (z = true -> eqb x (ofZ 0) = false) -> (forall j, k = Some j -> small j x) -> has (TFloat n z k) (PFloat n' x)
| H_numf b n x : has (TNum b) (PFloat n x)
| H_numi b z : (Z.abs z <= b)%Z -> has (TNum b) (PInt z)
| H_exact z : (Z.abs z < int_limit)%Z -> has (TExact z) (PInt z)
| H_bool b : has TBool (PBool b)
| H_tuple l ws : List.Forall2 has l ws -> has (TTuple l) (PTuple ws)
| H_fun m f : has (TFun m f) (PFun m f)
| H_builtin f : has (TBuiltin f) (PBuiltin f).
Definition fine {T} (R : T -> Prop) (o : outcome T) : Prop :=
  match o with Ok w => R w | Exn (raised ZeroDivisionError) => no_zero_division strict = false | Exn OverflowError => no_overflow strict = false | Stuck => False end.
Lemma fine_bind {S T} (R : S -> Prop) (R' : T -> Prop) m k : fine R m -> (forall w, R w -> fine R' (k w)) -> fine R' (obind m k).
Proof. destruct m as [|[]|]; cbn; auto. Qed.
Lemma fine_weaken {T} (R R' : T -> Prop) o : (forall w, R w -> R' w) -> fine R o -> fine R' o.
Proof. destruct o as [|[]|]; cbn; auto. Qed.
Lemma has_plain n n' x : (n = true -> n' = true) -> has (tplain n) (PFloat n' x).
Proof. intros H. constructor; [exact H|discriminate|discriminate]. Qed.
Lemma has_num a w : tnum a = true -> has a w -> exists x, number w = Ok x /\ (tnumpy a = true -> is_numpy w = true) /\ (tnonzero a = true -> eqb x (ofZ 0) = false).
Proof.
  intros N H. destruct H; try discriminate N; eexists; (split; [reflexivity|]); cbn [tnumpy tnonzero is_numpy]; try (split; auto; discriminate).
  split; [discriminate|]. intros Z0. rewrite Hofz by assumption. destruct (Z.eqb z 0); [discriminate|reflexivity].
Qed.
Lemma tmixed_some b r : tmixed b = Some r -> r = TNum b /\ (b < int_limit)%Z.
Proof. unfold tmixed. destruct (Z.ltb_spec b int_limit); [|discriminate]. intros [= <-]. auto. Qed.
Lemma texact_some b r : texact b = Some r -> r = TExact b /\ (Z.abs b < int_limit)%Z.
Proof. unfold texact. destruct (Z.ltb_spec (Z.abs b) int_limit); [|discriminate]. intros [= <-]. auto. Qed.
Lemma small_fine z r : texact z = Some r -> fine (has r) (@small_int A z).
Proof.
  intros E. apply texact_some in E. destruct E as [-> L]. unfold small_int, int_limit in *.
  destruct (Z.ltb_spec (Z.abs z) (2 ^ 53)); [constructor; exact L|lia].
Qed.
Lemma small_mixed z b : (Z.abs z <= b)%Z -> (b < int_limit)%Z -> fine (has (TNum b)) (@small_int A z).
Proof.
  intros H L. unfold small_int, int_limit in *. destruct (Z.ltb_spec (Z.abs z) (2 ^ 53)); [constructor; exact H|lia].
Qed.
Lemma orb_impl a b c d : (a = true -> c = true) -> (b = true -> d = true) -> a || b = true -> c || d = true.
Proof. intros H1 H2 H. apply orb_true_iff in H. apply orb_true_iff. destruct H; auto. Qed.
Definition pz (o : binop) : Z -> Z -> Z := match o with Add => Z.add | Sub => Z.sub | _ => Z.mul end.
Definition pf (o : binop) : A -> A -> A := match o with Add => add | Sub => sub | _ => mul end.
Lemma fine_float_op o a b v w : tnum a = true -> tnum b = true -> has a v -> has b w ->
  exists n x, py_float_op (pf o) v w = Ok (PFloat n x) /\ (tnumpy a || tnumpy b = true -> n = true) /\ (forall k, tsize o a b = Some k -> small k x).
Proof.
  intros Na Nb Ha Hb. destruct (has_num _ _ Na Ha) as [x [X [NX _]]]. destruct (has_num _ _ Nb Hb) as [y [Y [NY _]]].
  unfold py_float_op. rewrite X, Y. cbn [obind]. eexists. eexists. split; [reflexivity|]. split; [apply orb_impl; assumption|].
  intros k E. destruct o; try discriminate E. destruct Ha as [na za ka n' x' _ _ Sa| | | | | | |]; try discriminate E. destruct ka as [ka|]; [|discriminate E].
  destruct Hb as [nb zb kb m' y' _ _ Sb| | | | | | |]; try discriminate E. destruct kb as [kb|]; [|discriminate E]. cbn [tsize] in E.
  destruct (Z.ltb_spec (Z.max ka kb + 1) 1024) as [L|L]; [|discriminate E]. injection E as <-. injection X as <-. injection Y as <-.
  exact (small_sub _ _ _ _ (Sa _ eq_refl) (Sb _ eq_refl) L).
Qed.
Lemma fine_ring o a b r v w : ring_op o = true -> tbin strict o a b = Some r -> has a v -> has b w -> fine (has r) (py_binop P o v w).
Proof.
  intros O E Ha Hb.
  assert (N : tnum a = true /\ tnum b = true).
  { destruct o; try discriminate O; destruct a; try discriminate E; destruct b; try discriminate E; auto. }
  destruct N as [Na Nb].
  assert (Q : py_binop P o v w = match v, w with PInt x, PInt y => small_int (pz o x y) | _, _ => py_float_op (pf o) v w end)
    by (destruct o; try discriminate O; destruct v, w; reflexivity).
  assert (E' : match a, b with TExact x, TExact y => texact (pz o x y) | _, _ =>
            match tbound a, tbound b with Some x, Some y => tmixed (match o with Mult => x * y | _ => x + y end)%Z | _, _ => Some (TFloat (tnumpy a || tnumpy b) false (tsize o a b)) end end = Some r).
  { destruct o; try discriminate O; destruct a; try discriminate Na; destruct b; try discriminate Nb; exact E. }
  rewrite Q. clear Q E. destruct (fine_float_op o a b v w Na Nb Ha Hb) as [n [x [F [NF SF]]]].
  assert (B : forall i j bi bj, (Z.abs i <= bi -> Z.abs j <= bj -> Z.abs (pz o i j) <= match o with Mult => bi * bj | _ => bi + bj end)%Z).
  { intros i j bi bj Hi Hj. destruct o; try discriminate O; cbn [pz]; try lia. rewrite Z.abs_mul. apply Z.mul_le_mono_nonneg; lia. }
  destruct Ha; try discriminate Na; destruct Hb; try discriminate Nb; cbn [tbound] in E';
  try (injection E' as <-; rewrite ?F; constructor; [exact NF|discriminate|exact SF]);
  try (destruct (tmixed_some _ _ E') as [-> L]; rewrite F; constructor);
  try (destruct (tmixed_some _ _ E') as [-> L]; apply small_mixed; [apply B; (assumption || lia)|exact L]).
  apply small_fine, E'.
Qed.
Lemma fine_bin o a b r v w : tbin strict o a b = Some r -> has a v -> has b w -> fine (has r) (py_binop P o v w).
Proof.
  intros E Ha Hb. destruct (ring_op o) eqn:O; [exact (fine_ring o a b r v w O E Ha Hb)|]. destruct o; try discriminate O; cbn [tbin] in E.
  - assert (Q : py_binop P Div v w = py_div P v w) by (destruct v, w; reflexivity). rewrite Q.
    destruct (tnum a) eqn:Na; [|discriminate E]. destruct (tnum b) eqn:Nb; [|discriminate E]. cbn [andb] in E.
    destruct (has_num _ _ Na Ha) as [x [X [NX _]]]. destruct (has_num _ _ Nb Hb) as [y [Y [NY ZY]]].
    destruct (negb (no_zero_division strict) || tnumpy a || tnumpy b || tnonzero b) eqn:C; [|discriminate E]. injection E as <-.
    unfold py_div. rewrite X, Y. cbn [obind].
    destruct (eqb y (ofZ 0)) eqn:Z0.
    + destruct (is_numpy v || is_numpy w) eqn:NP; [apply has_plain; reflexivity|]. cbn [fine].
      apply orb_false_iff in NP. destruct NP as [N1 N2].
      destruct (no_zero_division strict); [|reflexivity]. cbn [negb orb] in C.
      destruct (tnumpy a); [specialize (NX eq_refl); congruence|]. destruct (tnumpy b); [specialize (NY eq_refl); congruence|].
      cbn [orb] in C. specialize (ZY C). congruence.
    + apply has_plain. apply orb_impl; assumption.
  - destruct b as [| |n| | | |]; try discriminate E. inversion Hb; subst.
    destruct a as [np nz k|c|z| | | |]; try discriminate E.
    + destruct n as [|p|]; try discriminate E. destruct (negb (no_overflow strict) || tpow_ok np k p) eqn:C; [|discriminate E]. injection E as <-.
      inversion Ha as [? ? ? n' x Hn Hz Hk| | | | | | |]; subst. cbn [py_binop]. destruct (negb n' && pow_overflows P x p) eqn:O'; [|apply has_plain; assumption].
      cbn [fine]. destruct (no_overflow strict); [|reflexivity]. exfalso. cbn [negb orb] in C. apply andb_true_iff in O'. destruct O' as [O1 O2].
      unfold tpow_ok in C. destruct np; [rewrite (Hn eq_refl) in O1; discriminate O1|]. cbn [orb] in C. destruct k as [k|]; [|discriminate C].
      apply andb_true_iff in C. destruct C as [C1 C2]. apply Z.leb_le in C1, C2. rewrite (small_pow k x p (Hk k eq_refl) C1 C2) in O2. discriminate O2.
    + inversion Ha; subst. cbn [py_binop]. destruct (Z.leb 0 n); [|discriminate E]. apply small_fine, E.
Qed.
Lemma fine_usub a r w : tusub a = Some r -> has a w -> fine (has r) (py_usub w).
Proof.
  intros E H. destruct H; try discriminate E; cbn [tusub] in E; cbn [py_usub].
  - injection E as <-. apply has_plain. assumption.
  - apply tmixed_some in E. destruct E as [-> _]. constructor.
  - apply tmixed_some in E. destruct E as [-> L]. apply small_mixed; [lia|exact L].
  - apply small_fine, E.
Qed.
Lemma compare_fine fz f a b v w : tnum a = true -> tnum b = true -> has a v -> has b w -> exists t, @py_compare A fz f v w = Ok t.
Proof.
  intros Na Nb Ha Hb. destruct (has_num _ _ Na Ha) as [x [X _]]. destruct (has_num _ _ Nb Hb) as [y [Y _]].
  unfold py_compare. destruct v, w; try discriminate X; try discriminate Y; rewrite ?X, ?Y; eexists; reflexivity.
Qed.
Lemma cmp_fine o a b v w : tcmp o a b = true -> has a v -> has b w -> exists t, py_cmp P o v w = Ok t.
Proof.
  intros E Ha Hb. destruct o; cbn [tcmp py_cmp] in *; apply andb_true_iff in E; destruct E as [Na Nb].
  - exact (compare_fine _ _ a b _ _ Na Nb Ha Hb).
  - exact (compare_fine _ _ a b _ _ Na Nb Ha Hb).
  - exact (compare_fine _ _ a b _ _ Na Nb Ha Hb).
  - exact (compare_fine _ _ b a _ _ Nb Na Hb Ha).
  - destruct b; try discriminate Nb. inversion Hb as [| | | | |? ws F| |]; subst. clear Hb.
    induction F as [|b w l ws Hb F IH]; [eexists; reflexivity|]. cbn [forallb] in Nb. apply andb_true_iff in Nb. destruct Nb as [Nb Nl].
    cbn [py_in]. destruct (same_object P v w); [eexists; reflexivity|].
    destruct (compare_fine Z.eqb eqb a b v w Na Nb Ha Hb) as [t T]. unfold py_eq. rewrite T. cbn [obind]. destruct t; [eexists; reflexivity|exact (IH Nl)].
Qed.
Lemma builtin_fine f l r ws : tbuiltin f l = Some r -> List.Forall2 has l ws -> fine (has r) (py_builtin f ws).
Proof.
  intros E H. destruct l as [|a [|? ?]]; try discriminate E. inversion H as [|? w ? ? Ha Hl]; subst. inversion Hl; subst.
  cbn [tbuiltin] in E. cbn [py_builtin]. destruct (String.eqb f "bool").
  - destruct a; try discriminate E. injection E as <-. inversion Ha; subst. constructor.
  - destruct (tnum a) eqn:Na; [|discriminate E]. destruct (has_num _ _ Na Ha) as [x [-> _]]. cbn [obind].
    cbn [existsb] in E.
    repeat (match goal with |- context [if String.eqb f ?s then _ else _] => destruct (String.eqb f s); [injection E as <-; apply has_plain; auto|] end).
    discriminate E.
Qed.
Lemma attribute_fine m x r : tattribute m x = Some r -> fine (has r) (@py_attribute A m x).
Proof.
  unfold tattribute, py_attribute. destruct (String.eqb m "np"); [|discriminate].
  destruct (String.eqb x "pi"); [intros [= <-]; constructor; auto; discriminate|].
  destruct (String.eqb x "nan"); intros [= <-]; [apply has_plain; auto|constructor].
Qed.
Lemma ty_eqb_eq : forall a b, ty_eqb a b = true -> a = b.
Proof.
  fix IH 1. intros a b. destruct a as [n z k|x|x| |l|m f|f]; destruct b as [n' z' k'|y|y| |l'|m' f'|f']; cbn [ty_eqb]; try discriminate; try reflexivity.
  - intros H. apply andb_true_iff in H. destruct H as [H H3]. apply andb_true_iff in H. destruct H as [H1 H2]. apply Bool.eqb_prop in H1, H2.
    assert (k = k') by (destruct k as [k|], k' as [k'|]; cbn in H3; try discriminate; [apply Z.eqb_eq in H3; congruence|reflexivity]). congruence.
  - intros H. apply Z.eqb_eq in H. congruence.
  - intros H. apply Z.eqb_eq in H. congruence.
  - intros H. f_equal. revert l' H. induction l as [|a l IHl]; intros [|b l']; try discriminate; [reflexivity|].
    intros H. apply andb_true_iff in H. destruct H as [H1 H2]. f_equal; [exact (IH _ _ H1)|exact (IHl _ H2)].
  - intros H. apply andb_true_iff in H. destruct H as [H1 H2]. apply String.eqb_eq in H1, H2. congruence.
  - intros H. apply String.eqb_eq in H. congruence.
Qed.
Lemma has_mix a w b : tnum a = true -> (tbound0 a <= b)%Z -> has a w -> has (TNum b) w.
Proof. intros N B H. destruct H; try discriminate N; cbn in B; constructor; lia. Qed.
Lemma join1_fine a b r w : tjoin1 a b = Some r -> (has a w -> has r w) /\ (has b w -> has r w).
Proof.
  unfold tjoin1. destruct (ty_eqb a b) eqn:Q.
  - apply ty_eqb_eq in Q. subst. intros [= ->]. auto.
  - clear Q. intros E.
    assert (X : (exists n z k n' z' k', a = TFloat n z k /\ b = TFloat n' z' k' /\ r = TFloat (n && n') (z && z') None) \/
                (tnum a = true /\ tnum b = true /\ r = TNum (Z.max (tbound0 a) (tbound0 b)))).
    { destruct a; destruct b; try discriminate E; try (right; cbn [tnum andb] in E; apply tmixed_some in E; destruct E as [-> _]; auto).
      left. injection E as <-. eauto 12. }
    destruct X as [[n [z [k [n' [z' [k' [-> [-> ->]]]]]]]]|[Na [Nb ->]]].
    + split; intros H; inversion H; subst; constructor; intros T; try (apply andb_true_iff in T; destruct T; auto); discriminate.
    + split; intros H; [apply (has_mix a)|apply (has_mix b)]; auto; lia.
Qed.
Lemma join_list_fine l : forall m rs ws, tjoin_list l m = Some rs -> (List.Forall2 has l ws -> List.Forall2 has rs ws) /\ (List.Forall2 has m ws -> List.Forall2 has rs ws).
Proof.
  induction l as [|a l IH]; intros [|b m] rs ws E; cbn [tjoin_list] in E; try discriminate E; [injection E as <-; auto|].
  destruct (tjoin1 a b) as [r|] eqn:E1; [|discriminate E]. destruct (tjoin_list l m) as [rs'|] eqn:E2; [|discriminate E]. injection E as <-.
  split; intros H; inversion H; subst; constructor.
  - refine (proj1 (join1_fine _ _ _ _ E1) _); assumption.
  - refine (proj1 (IH _ _ _ E2) _); assumption.
  - refine (proj2 (join1_fine _ _ _ _ E1) _); assumption.
  - refine (proj2 (IH _ _ _ E2) _); assumption.
Qed.
Lemma join_fine a b r w : tjoin a b = Some r -> (has a w -> has r w) /\ (has b w -> has r w).
Proof.
  destruct a; destruct b; try exact (join1_fine _ _ r w). cbn [tjoin]. destruct (tjoin_list l l0) as [rs|] eqn:E; [|discriminate]. intros [= <-].
  split; intros H; inversion H; subst; constructor; [refine (proj1 (join_list_fine _ _ _ _ E) _)|refine (proj2 (join_list_fine _ _ _ _ E) _)]; assumption.
Qed.
Definition ehas (e : tenv) (s : @pyenv A) : Prop :=
  forall x, match lookup x e with
            | None => lookup x s = None
            | Some None => True
            | Some (Some a) => exists v, lookup x s = Some v /\ has a v
            end.
Lemma ehas_store e s x a v : ehas e s -> has a v -> ehas (store x (Some a) e) (store x v s).
Proof. intros E H y. rewrite !lookup_store. destruct (String.eqb y x); [eauto|exact (E y)]. Qed.
Lemma ehas_nil : ehas [] [].
Proof. intros x. reflexivity. Qed.
Lemma lookup_tjoin x e1 e2 : lookup x (tjoin_env e1 e2) =
  match lookup x e1 with
  | Some a => Some (match a, lookup x e2 with Some a, Some (Some b) => tjoin a b | _, _ => None end)
  | None => match lookup x e2 with Some _ => Some None | None => None end
  end.
Proof.
  unfold tjoin_env. rewrite lookup_app.
  rewrite (lookup_map (fun x a => match a, lookup x e2 with Some a, Some (Some b) => tjoin a b | _, _ => None end)).
  destruct (lookup x e1); [reflexivity|].
  rewrite (lookup_map (fun _ _ => None)). reflexivity.
Qed.
Lemma ehas_join e1 e2 s : (ehas e1 s -> ehas (tjoin_env e1 e2) s) /\ (ehas e2 s -> ehas (tjoin_env e1 e2) s).
Proof.
  split; intros E x; rewrite lookup_tjoin; specialize (E x); (destruct (lookup x e1) as [[a|]|]; [destruct (lookup x e2) as [[b|]|]; try exact I|exact I|destruct (lookup x e2); [exact I|exact E]]);
  (destruct (tjoin a b) eqn:J; [|exact I]); destruct E as [v [Hv H]]; exists v; (split; [exact Hv|]); [exact (proj1 (join_fine _ _ _ v J) H)|exact (proj2 (join_fine _ _ _ v J) H)].
Qed.
Lemma store_all_fine xs l e r ws s : tstore_all xs l e = Some r -> List.Forall2 has l ws -> ehas e s -> fine (ehas r) (py_store_all xs ws s).
Proof.
  intros E H. revert xs e s E. induction H as [|a w l ws Ha Hl IH]; intros [|x xs] e s E Hs; try discriminate E.
  - injection E as <-. exact Hs.
  - cbn [py_store_all tstore_all] in *. eapply IH; [exact E|]. apply ehas_store; assumption.
Qed.

Section SBody.
Variables (c : string -> string -> list W -> outcome W) (g : string -> outcome W).
Variables (tc : string -> string -> list ty -> option ty) (tg : string -> option ty).
Hypothesis Hc : forall m f l r ws, tc m f l = Some r -> List.Forall2 has l ws -> fine (has r) (c m f ws).
Hypothesis Hg : forall x r, tg x = Some r -> fine (has r) (g x).
Lemma eval_fine e : forall te s r, teval strict tc tg te e = Some r -> ehas te s -> fine (has r) (py_eval P c g s e).
Proof.
  assert (L : forall es, List.Forall (fun e => forall te s r, teval strict tc tg te e = Some r -> ehas te s -> fine (has r) (py_eval P c g s e)) es ->
    forall te s l, tlist (teval strict tc tg te) es = Some l -> ehas te s -> fine (List.Forall2 has l) (py_list (py_eval P c g s) es)).
  { induction 1 as [|e0 es He F IH]; intros te s l E Hs; cbn [tlist py_list] in *.
    - injection E as <-. constructor.
    - apply abind_some in E. destruct E as [b [Eb E]]. apply abind_some in E. destruct E as [l' [El' E]]. injection E as <-.
      eapply fine_bind; [exact (He _ _ _ Eb Hs)|]. intros u Hu. eapply fine_bind; [exact (IH _ _ _ El' Hs)|]. intros us Hus. constructor; assumption. }
  induction e using expr_induction; intros te s ty0 E Hs.
  - cbn in *. specialize (Hs x). destruct (lookup x te) as [[a|]|].
    + injection E as <-. destruct Hs as [v [-> H]]. exact H.
    + discriminate E.
    + rewrite Hs. apply Hg, E.
  - cbn in *. apply small_fine, E.
  - cbn in *. injection E as <-. apply has_plain. discriminate.
  - cbn in *. apply attribute_fine, E.
  - cbn in *. apply abind_some in E. destruct E as [a [Ea E]]. apply abind_some in E. destruct E as [b [Eb E]].
    eapply fine_bind; [exact (IHe1 _ _ _ Ea Hs)|]. intros v Hv. eapply fine_bind; [exact (IHe2 _ _ _ Eb Hs)|]. intros w Hw. exact (fine_bin _ _ _ _ _ _ E Hv Hw).
  - cbn in *. apply abind_some in E. destruct E as [a [Ea E]]. eapply fine_bind; [exact (IHe _ _ _ Ea Hs)|]. intros v Hv. exact (fine_usub _ _ _ E Hv).
  - cbn in *. apply abind_some in E. destruct E as [a [Ea E]]. eapply fine_bind; [exact (IHe _ _ _ Ea Hs)|]. clear Ea IHe.
    revert a E. induction H as [|[o e1] rest H1 F IHr]; intros a E v Hv; cbn [tchain py_chain] in *.
    + injection E as <-. constructor.
    + apply abind_some in E. destruct E as [b [Eb E]]. eapply fine_bind; [exact (H1 _ _ _ Eb Hs)|]. intros w Hw.
      destruct (tcmp o a b) eqn:Q; [|discriminate E]. destruct (cmp_fine _ _ _ _ _ Q Hv Hw) as [tt ->]. cbn [obind].
      destruct tt; [exact (IHr b E _ Hw)|].
      assert (R : ty0 = TBool).
      { clear -E. revert b E. induction rest as [|[o e1] rest IHr]; intros b E; cbn [tchain] in E; [injection E as <-; reflexivity|].
        apply abind_some in E. destruct E as [b' [_ E]]. destruct (tcmp o b b'); [exact (IHr _ E)|discriminate E]. }
      subst. constructor.
  - cbn in *. induction H as [|e es He F IHe]; cbn [tbools py_bool] in *.
    + injection E as <-. constructor.
    + apply abind_some in E. destruct E as [a [Ea E]]. destruct a; try discriminate E.
      eapply fine_bind; [exact (He _ _ _ Ea Hs)|]. intros v Hv. inversion Hv; subst. cbn [truth obind].
      assert (R : ty0 = TBool).
      { clear -E. induction es as [|e1 es IHr]; cbn [tbools] in E; [injection E as <-; reflexivity|].
        apply abind_some in E. destruct E as [b' [_ E]]. destruct b'; try discriminate E. exact (IHr E). }
      destruct o; destruct b; try exact (IHe E); subst; constructor.
  - cbn in *. apply abind_some in E. destruct E as [a [Ea E]]. destruct a; try discriminate E.
    apply abind_some in E. destruct E as [x [Ex E]]. apply abind_some in E. destruct E as [y [Ey E]].
    eapply fine_bind; [exact (IHe1 _ _ _ Ea Hs)|]. intros v Hv. inversion Hv; subst. cbn [truth obind].
    destruct b; [eapply fine_weaken; [|exact (IHe2 _ _ _ Ex Hs)]|eapply fine_weaken; [|exact (IHe3 _ _ _ Ey Hs)]]; intros w; apply (join_fine _ _ _ w E).
  - cbn in *. apply abind_some in E. destruct E as [a [Ea E]]. apply abind_some in E. destruct E as [l [El E]].
    eapply fine_bind; [exact (IHe _ _ _ Ea Hs)|]. intros v Hv. eapply fine_bind; [exact (L _ H _ _ _ El Hs)|]. intros vs Hvs.
    destruct a; try discriminate E; inversion Hv; subst; cbn [tapply py_apply] in *.
    + exact (Hc _ _ _ _ _ E Hvs).
    + exact (builtin_fine _ _ _ _ E Hvs).
  - cbn in *. apply abind_some in E. destruct E as [l [El E]]. injection E as <-.
    eapply fine_bind; [exact (L _ H _ _ _ El Hs)|]. intros vs Hvs. constructor. exact Hvs.
Qed.
Lemma iterate_fine e te s l : titerate strict tc tg te e = Some l -> ehas te s -> fine (List.Forall2 has l) (py_iterate P c g s e).
Proof.
  intros E Hs. destruct e as [| | | | | | | | |f args|]; try discriminate E. destruct f as [f| | | | | | | | | |]; try discriminate E.
  destruct args as [|n [|? ?]]; try discriminate E. cbn [titerate py_iterate] in *. destruct (String.eqb f "range"); [|discriminate E].
  apply abind_some in E. destruct E as [a [Ea E]]. destruct a; try discriminate E. injection E as <-.
  eapply fine_bind; [exact (eval_fine _ _ _ _ Ea Hs)|]. intros v H. inversion H as [| | |? L| | | |]; subst. cbn [fine].
  assert (B : (0 + Z.to_nat z <= Z.to_nat z)%nat) by lia. revert B. generalize 0%nat, (Z.to_nat z) at 1 3 4. intros i k. revert i.
  induction k as [|k IH]; intros i B; cbn; constructor; [constructor; lia|apply IH; lia].
Qed.
Definition fhas (f : tflow) (x : @pyflow A) : Prop :=
  match x with
  | PRunning s => exists e, fst f = Some e /\ ehas e s
  | PReturned v => exists a, snd f = Some a /\ has a v
  end.
Lemma fhas_join f h r x : tjoin_flow f h = Some r -> (fhas f x -> fhas r x) /\ (fhas h x -> fhas r x).
Proof.
  unfold tjoin_flow. intros E. apply abind_some in E. destruct E as [r2 [E2 E]]. injection E as <-.
  destruct f as [f1 f2], h as [h1 h2]. cbn [fst snd] in *.
  split; (destruct x; cbn [fhas fst snd]).
  - intros [e [-> H]]. destruct h1 as [h1|]; eexists; (split; [reflexivity|]); [exact (proj1 (ehas_join _ _ _) H)|exact H].
  - intros [a [-> H]]. destruct h2 as [h2|].
    + apply abind_some in E2. destruct E2 as [b [J E2]]. injection E2 as <-. exists b. split; [reflexivity|]. exact (proj1 (join_fine _ _ _ _ J) H).
    + injection E2 as <-. eauto.
  - intros [e [-> H]]. destruct f1 as [f1|]; eexists; (split; [reflexivity|]); [exact (proj2 (ehas_join _ _ _) H)|exact H].
  - intros [a [-> H]]. destruct f2 as [f2|].
    + apply abind_some in E2. destruct E2 as [b [J E2]]. injection E2 as <-. exists b. split; [reflexivity|]. exact (proj2 (join_fine _ _ _ _ J) H).
    + injection E2 as <-. eauto.
Qed.
Lemma seq_fine f k r k2 y : tseq f k = Some r -> fhas f y ->
  (forall e t h, k e = Some h -> ehas e t -> fine (fhas h) (k2 t)) ->
  fine (fhas r) (match y with PRunning t => k2 t | PReturned w => Ok (PReturned w) end).
Proof.
  intros E H K. destruct f as [[e|] f2]; unfold tseq in E; cbn [fst snd] in E.
  - apply abind_some in E. destruct E as [h [Eh E]]. destruct y as [t|w].
    + destruct H as [e' [Q H]]. injection Q as <-. eapply fine_weaken; [|exact (K _ _ _ Eh H)]. intros w. exact (proj2 (fhas_join _ _ _ _ E)).
    + apply (proj1 (fhas_join _ _ _ _ E)). exact H.
  - injection E as <-. destruct y as [t|w].
    + destruct H as [e' [Q _]]. discriminate Q.
    + exact H.
Qed.
Lemma block_fine cs : List.Forall (fun i => forall te s r, texec strict tc tg te i = Some r -> ehas te s -> fine (fhas r) (py_exec P c g s i)) cs ->
  forall te s r, tblock (texec strict tc tg) te cs = Some r -> ehas te s -> fine (fhas r) (py_block (py_exec P c g) s cs).
Proof.
  induction 1 as [|i cs Hi F IH]; intros te s r E Hs; cbn [tblock py_block] in *.
  - injection E as <-. cbn. eauto.
  - apply abind_some in E. destruct E as [f [Ef E]]. eapply fine_bind; [exact (Hi _ _ _ Ef Hs)|]. intros y Hy.
    exact (seq_fine f _ r _ y E Hy (fun e' t' h Eh He => IH _ _ _ Eh He)).
Qed.
Lemma exec_fine i : forall te s r, texec strict tc tg te i = Some r -> ehas te s -> fine (fhas r) (py_exec P c g s i).
Proof.
  induction i using stmt_induction; intros te s r E Hs.
  - assert (T : forall w l, has (TTuple l) w -> forall s', tstore_all xs l te = Some s' ->
        fine (fhas (Some s', None)) (match w with PTuple vs => do s'' <- py_store_all xs vs s; Ok (PRunning s'') | _ => Stuck end)).
    { intros w l H s' Es. inversion H; subst. eapply fine_bind; [eapply store_all_fine; eassumption|]. intros t1 Ht. cbn. eauto. }
    destruct xs as [|x [|x' xs]]; cbn [texec py_exec] in *; apply abind_some in E; destruct E as [v [Ev E]];
    (eapply fine_bind; [exact (eval_fine _ _ _ _ Ev Hs)|]); intros w Hw.
    + destruct v; try discriminate E. apply abind_some in E. destruct E as [s' [Es E]]. injection E as <-. exact (T _ _ Hw _ Es).
    + injection E as <-. cbn. eexists. split; [reflexivity|]. apply ehas_store; assumption.
    + destruct v; try discriminate E. apply abind_some in E. destruct E as [s' [Es E]]. injection E as <-. exact (T _ _ Hw _ Es).
  - cbn [texec py_exec] in *. pose proof (Hs x) as Hx. destruct (lookup x te) as [[a|]|]; try discriminate E.
    destruct Hx as [v [-> Hv]]. apply abind_some in E. destruct E as [b [Eb E]]. apply abind_some in E. destruct E as [d [Ed E]]. injection E as <-.
    eapply fine_bind; [exact (eval_fine _ _ _ _ Eb Hs)|]. intros u Hu. eapply fine_bind; [exact (fine_bin _ _ _ _ _ _ Ed Hv Hu)|]. intros q Hq.
    cbn. eexists. split; [reflexivity|]. apply ehas_store; assumption.
  - cbn [texec py_exec] in *. apply abind_some in E. destruct E as [v [Ev E]]. destruct v; try discriminate E.
    apply abind_some in E. destruct E as [f [Ef E]]. apply abind_some in E. destruct E as [h [Eh E]].
    eapply fine_bind; [exact (eval_fine _ _ _ _ Ev Hs)|]. intros w Hw. inversion Hw; subst. cbn [truth obind]. destruct b0.
    + eapply fine_weaken; [|exact (block_fine _ H _ _ _ Ef Hs)]. intros y. exact (proj1 (fhas_join _ _ _ _ E)).
    + eapply fine_weaken; [|exact (block_fine _ H0 _ _ _ Eh Hs)]. intros y. exact (proj2 (fhas_join _ _ _ _ E)).
  - cbn [texec py_exec] in *. apply abind_some in E. destruct E as [l [El E]].
    eapply fine_bind; [exact (iterate_fine _ _ _ _ El Hs)|]. intros ws Hw. clear El.
    revert te s r E Hs. induction Hw as [|a w l ws Ha Hl IHl]; intros te s r E Hs; cbn [tloop py_loop] in *.
    + injection E as <-. cbn. eauto.
    + apply abind_some in E. destruct E as [f [Ef E]].
      eapply fine_bind; [eapply (block_fine _ H); [exact Ef|apply ehas_store; assumption]|]. intros q Hq.
      exact (seq_fine f _ r _ q E Hq (fun e' t' h Eh He => IHl _ _ _ Eh He)).
  - cbn [texec py_exec] in *. apply abind_some in E. destruct E as [v [Ev E]]. injection E as <-.
    eapply fine_bind; [exact (eval_fine _ _ _ _ Ev Hs)|]. intros w Hw. cbn. eauto.
Qed.
Lemma call_body_fine d l r ws : tcall_body strict tc tg d l = Some r -> List.Forall2 has l ws -> fine (has r) (py_call_body P c g d ws).
Proof.
  unfold tcall_body, py_call_body. intros E H. apply abind_some in E. destruct E as [e [Ee E]]. apply abind_some in E. destruct E as [f [Ef E]].
  eapply fine_bind; [exact (store_all_fine _ _ _ _ _ _ Ee H ehas_nil)|]. intros s Hs.
  eapply fine_bind; [eapply block_fine; [apply List.Forall_forall; intros i _; apply exec_fine|exact Ef|exact Hs]|]. intros y Hy.
  destruct f as [[?|] [a|]]; try discriminate E. injection E as <-. destruct y as [t|w].
  - destruct Hy as [? [Q _]]. discriminate Q.
  - destruct Hy as [a' [Q R]]. cbn in Q. injection Q as <-. exact R.
Qed.
End SBody.

Section SProgram.
Variable program : list pymodule.
Lemma resolve_fine depth m x r : tresolve strict program depth m x = Some r -> fine (has r) (py_resolve P program depth m x).
Proof.
  revert m. induction depth as [|depth IH]; intros m; cbn [tresolve py_resolve];
  (destruct (find_module m program) as [d|]; [|discriminate]);
  (destruct (find_fun x (funs d)); [intros [= <-]; constructor|]);
  (destruct (lookup x (consts d)) as [e|]; [intros E; eapply eval_fine; [| |exact E|exact ehas_nil]; discriminate|]);
  (destruct (find_import x (imports d)); [|discriminate]).
  - discriminate.
  - apply IH.
Qed.
Lemma global_fine m x r : tglobal_of strict program m x = Some r -> fine (has r) (py_global P program m x).
Proof.
  unfold tglobal_of, py_global. destruct (String.eqb x "bool"); [intros [= <-]; constructor|apply resolve_fine].
Qed.
Lemma call_fine fuel : forall m f l r ws, tcall strict program fuel m f l = Some r -> List.Forall2 has l ws -> fine (has r) (py_call P program fuel m f ws).
Proof.
  induction fuel as [|fuel IH]; intros m f l r ws E H; [discriminate E|]. cbn [tcall py_call] in *.
  destruct (find_module m program) as [d|]; [|discriminate E]. destruct (find_fun f (funs d)) as [fd|]; [|discriminate E].
  eapply call_body_fine; [exact IH|apply global_fine|exact E|exact H].
Qed.
Theorem interpreted_call_fine m f l r ws : tpython_call strict program m f l = Some r -> List.Forall2 has l ws -> fine (has r) (interpreted_call P program m f ws).
Proof.
  unfold tpython_call, interpreted_call. intros E H. apply abind_some in E. destruct E as [a [Ea E]].
  eapply fine_bind; [exact (resolve_fine _ _ _ _ Ea)|]. intros w Hw. destruct a; try discriminate E. inversion Hw; subst.
  exact (call_fine _ _ _ _ _ _ E H).
Qed.
End SProgram.
End Sound.
