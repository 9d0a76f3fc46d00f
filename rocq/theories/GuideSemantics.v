(** * What the functions of the user guide mean

    A definitional interpreter for [GuideSyntax.v]: arrays in a heap, loops, calls of choclo's
    functions (run from their own source text by [PySemantics.v]); and, for functions compiled
    with [parallel=True], the interleavings of the iterations of a [numba.prange] loop. *)
From Coq Require Import ZArith List String Bool Arith.
From Verif Require Import Arith PySyntax PySemantics GuideSyntax.
Import ListNotations.
Local Open Scope string_scope.

(** Outcomes. [OutOfBounds] is an access outside an array: IndexError in the Python
    interpreter, undefined behaviour in compiled code, where Numba does not check bounds.
    [Wrong] is any other error (unknown name, wrong type), or a program outside the subset. *)
Inductive gout (T : Type) : Type :=
| GOk (x : T)
| GExn (e : pyexn)
| OutOfBounds
| Wrong.
Arguments GOk {T} x.
Arguments GExn {T} e.
Arguments OutOfBounds {T}.
Arguments Wrong {T}.
Definition gbind {S T} (m : gout S) (k : S -> gout T) : gout T :=
  match m with GOk x => k x | GExn e => GExn e | OutOfBounds => OutOfBounds | Wrong => Wrong end.
Notation "'go' x '<-' m ';' k" := (gbind m (fun x => k))
  (at level 200, x name, m at level 100, k at level 200, right associativity).

Section Semantics.
Context {A : arith}.

(** [GVArray loc off shape]: the C-contiguous float64 array of that shape whose first element
    is element [off] of block [loc] of the heap; a row of a matrix is such an array too. *)
Inductive gvalue : Type :=
| GVFloat (x : A)
| GVInt (z : Z)
| GVTuple (l : list gvalue)
| GVArray (loc off : nat) (shape : list nat)
| GVSlice
| GVBuiltin (x : string)         (* np, numba, and what they contain; len, range *)
| GVFun (m f : string).          (* imported by [from m import f] *)
Definition heap := list (list A).
Definition genv := list (string * gvalue).

Definition read (h : heap) (loc k : nat) : gout A :=
  match nth_error h loc with
  | Some a => match nth_error a k with Some x => GOk x | None => OutOfBounds end
  | None => Wrong
  end.
Fixpoint replace_nth {T} (l : list T) (k : nat) (x : T) : list T :=
  match l, k with
  | [], _ => []
  | _ :: l', O => x :: l'
  | y :: l', S k' => y :: replace_nth l' k' x
  end.
Definition write (h : heap) (loc k : nat) (x : A) : gout heap :=
  match nth_error h loc with
  | Some a => if Nat.ltb k (List.length a) then GOk (replace_nth h loc (replace_nth a k x)) else OutOfBounds
  | None => Wrong
  end.
Definition size (shape : list nat) : nat := fold_right Nat.mul 1 shape.

(** An index into a dimension of length [d]; a negative one counts from the end. *)
Definition in_range (z : Z) (d : nat) : gout nat :=
  if (0 <=? z)%Z then if (z <? Z.of_nat d)%Z then GOk (Z.to_nat z) else OutOfBounds
  else if (0 <=? z + Z.of_nat d)%Z then GOk (Z.to_nat (z + Z.of_nat d)) else OutOfBounds.
(** The part of an array that indices (and possibly a final [:]) select: offset and shape. *)
Fixpoint select (off : nat) (shape : list nat) (idx : list gvalue) : gout (nat * list nat) :=
  match idx, shape with
  | [], _ => GOk (off, shape)
  | [GVSlice], _ :: _ => GOk (off, shape)
  | GVInt z :: idx', d :: shape' => go k <- in_range z d; select (off + k * size shape') shape' idx'
  | _, _ => Wrong
  end.
Definition indices (i : gvalue) : list gvalue := match i with GVTuple l => l | _ => [i] end.
Definition subscript (h : heap) (v i : gvalue) : gout gvalue :=
  match v, i with
  | GVTuple l, GVSlice => GOk (GVTuple l)
  | GVTuple l, GVInt z =>
      go k <- in_range z (List.length l);
      match nth_error l k with Some x => GOk x | None => Wrong end
  | GVArray loc off shape, _ =>
      go p <- select off shape (indices i);
      match snd p with
      | [] => go x <- read h loc (fst p); GOk (GVFloat x)
      | _ => GOk (GVArray loc (fst p) (snd p))
      end
  | _, _ => Wrong
  end.
(** The heap cell that [v[i]] is, if it is one. *)
Definition element (v i : gvalue) : gout (nat * nat) :=
  match v with
  | GVArray loc off shape =>
      go p <- select off shape (indices i);
      match snd p with [] => GOk (loc, fst p) | _ => Wrong end
  | _ => Wrong
  end.
Definition nats (l : list nat) : list gvalue := map (fun d => GVInt (Z.of_nat d)) l.
Definition attribute (v : gvalue) (x : string) : gout gvalue :=
  match v with
  | GVBuiltin m => if String.eqb m "np" || String.eqb m "numba" then GOk (GVBuiltin (m ++ "." ++ x)) else Wrong
  | GVArray _ _ shape =>
      if String.eqb x "shape" then GOk (GVTuple (nats shape))
      else if String.eqb x "size" then GOk (GVInt (Z.of_nat (size shape)))
      else Wrong
  | _ => Wrong
  end.
(** [*v] in a call: the elements of a tuple or of a one-dimensional array. *)
Fixpoint read_all (h : heap) (loc off n : nat) : gout (list gvalue) :=
  match n with
  | O => GOk []
  | S n' => go x <- read h loc off; go l <- read_all h loc (S off) n'; GOk (GVFloat x :: l)
  end.
Definition star (h : heap) (v : gvalue) : gout (list gvalue) :=
  match v with
  | GVTuple l => GOk l
  | GVArray loc off [n] => read_all h loc off n
  | _ => Wrong
  end.
(** Scalars are passed to choclo's functions and returned by them. *)
Fixpoint scalars (l : list gvalue) : gout (list (value A)) :=
  match l with
  | [] => GOk []
  | GVFloat x :: l' => go r <- scalars l'; GOk (VFloat x :: r)
  | GVInt z :: l' => go r <- scalars l'; GOk (VInt z :: r)
  | _ => Wrong
  end.
Definition returned (o : outcome (value A)) : gout gvalue :=
  match o with
  | Ok (VFloat x) => GOk (GVFloat x)
  | Exn e => GExn e
  | _ => Wrong
  end.

Section Body.
Variable package : list pymodule.           (* choclo *)
Variable imports : list (string * string).
Variable garbage : nat -> A.                (* what np.empty finds in memory *)

Definition global (x : string) : gout gvalue :=
  if existsb (String.eqb x) ["np"; "numba"; "len"; "range"] then GOk (GVBuiltin x)
  else match find_import x imports with Some m => GOk (GVFun m x) | None => Wrong end.
Definition apply_fun (f : gvalue) (args : list gvalue) : gout gvalue :=
  match f with
  | GVFun m f => go l <- scalars args; returned (python_call package m f l)
  | GVBuiltin b =>
      if String.eqb b "len" then
        match args with
        | [GVArray _ _ (d :: _)] => GOk (GVInt (Z.of_nat d))
        | [GVTuple l] => GOk (GVInt (Z.of_nat (List.length l)))
        | _ => Wrong
        end
      else Wrong
  | _ => Wrong
  end.
Fixpoint geval (s : genv) (h : heap) (e : gexpr) {struct e} : gout gvalue :=
  match e with
  | GName x => match lookup x s with Some v => GOk v | None => global x end
  | GInt z => GOk (GVInt z)
  | GFloat n d => GOk (GVFloat (float_literal n d))
  | GAttribute e x => go v <- geval s h e; attribute v x
  | GSubscript e i => go v <- geval s h e; go w <- geval s h i; subscript h v w
  | GSlice => GOk GVSlice
  | GStarred _ => Wrong
  | GTuple es =>
      go vs <- (fix list_ es := match es with [] => GOk [] | e :: es' => go v <- geval s h e; go vs <- list_ es'; GOk (v :: vs) end) es;
      GOk (GVTuple vs)
  | GCall f es kw =>
      go g <- geval s h f;
      go vs <- (fix args es :=
        match es with
        | [] => GOk []
        | GStarred e :: es' => go v <- geval s h e; go l <- star h v; go vs <- args es'; GOk (l ++ vs)%list
        | e :: es' => go v <- geval s h e; go vs <- args es'; GOk (v :: vs)
        end) es;
      match kw with [] => apply_fun g vs | _ => Wrong end
  end.

(** Array creation, [np.zeros_like(a, dtype=np.float64)] or [np.empty((n, m), dtype=np.float64)]:
    the new array's shape and contents.  Only as the whole right-hand side of an assignment. *)
Fixpoint to_shape (l : list gvalue) : option (list nat) :=
  match l with
  | [] => Some []
  | GVInt z :: l' => if (0 <=? z)%Z then option_map (cons (Z.to_nat z)) (to_shape l') else None
  | _ => None
  end.
Definition creation (s : genv) (h : heap) (e : gexpr) : option (list nat * list A) :=
  match e with
  | GCall f [a] [("dtype", d)] =>
      match geval s h f, geval s h a, geval s h d with
      | GOk (GVBuiltin "np.zeros_like"), GOk (GVArray _ _ shape), GOk (GVBuiltin "np.float64") =>
          Some (shape, repeat (ofZ 0) (size shape))
      | GOk (GVBuiltin "np.empty"), GOk (GVTuple l), GOk (GVBuiltin "np.float64") =>
          match to_shape l with Some shape => Some (shape, map garbage (seq 0 (size shape))) | None => None end
      | _, _, _ => None
      end
  | _ => None
  end.
Fixpoint gstore_all (xs : list string) (vs : list gvalue) (s : genv) : gout genv :=
  match xs, vs with
  | [], [] => GOk s
  | x :: xs', v :: vs' => gstore_all xs' vs' (store x v s)
  | _, _ => Wrong
  end.
Definition assign (s : genv) (h : heap) (xs : list string) (e : gexpr) : gout (genv * heap) :=
  match xs with
  | [x] =>
      match creation s h e with
      | Some (shape, a) => GOk (store x (GVArray (List.length h) 0 shape) s, (h ++ [a])%list)
      | None => go v <- geval s h e; GOk (store x v s, h)
      end
  | _ =>
      go v <- geval s h e;
      match v with GVTuple vs => go s' <- gstore_all xs vs s; GOk (s', h) | _ => Wrong end
  end.
(** [x[i] = e]: the right-hand side first. *)
Definition set_item (s : genv) (h : heap) (x : string) (i e : gexpr) : gout heap :=
  go v <- geval s h e;
  go a <- geval s h (GName x); go w <- geval s h i; go p <- element a w;
  match v with GVFloat r => write h (fst p) (snd p) r | _ => Wrong end.
(** [x[i] += e]: the cell is read first, then [e] is evaluated, then the cell is written. *)
Definition load_item (s : genv) (h : heap) (x : string) (i : gexpr) : gout (nat * nat * A) :=
  go a <- geval s h (GName x); go w <- geval s h i; go p <- element a w;
  go old <- read h (fst p) (snd p); GOk (fst p, snd p, old).
Definition combine (o : binop) (x y : A) : gout A :=
  match o with
  | Add => GOk (add x y)
  | Sub => GOk (sub x y)
  | Mult => GOk (mul x y)
  | _ => Wrong
  end.
Definition store_item (s : genv) (h : heap) (loc k : nat) (old : A) (o : binop) (e : gexpr) : gout heap :=
  go v <- geval s h e;
  match v with GVFloat y => go r <- combine o old y; write h loc k r | _ => Wrong end.
(** [range(n)]; [numba.prange(n)] is [range(n)] except in a function compiled with
    [parallel=True]. *)
Definition is_prange (e : gexpr) : bool :=
  match e with GCall (GAttribute (GName "numba") "prange") _ _ => true | _ => false end.
Definition giterate (s : genv) (h : heap) (e : gexpr) : gout (list gvalue) :=
  match e with
  | GCall f [n] [] =>
      go g <- geval s h f; go v <- geval s h n;
      match g, v with
      | GVBuiltin "range", GVInt z | GVBuiltin "numba.prange", GVInt z => GOk (nats (seq 0 (Z.to_nat z)))
      | _, _ => Wrong
      end
  | _ => Wrong
  end.

(** ** Sequential execution *)
Inductive gflow : Type := GRunning (s : genv) (h : heap) | GReturned (v : gvalue) (h : heap).
Fixpoint gexec (s : genv) (h : heap) (c : gstmt) {struct c} : gout gflow :=
  let fix block (s : genv) (h : heap) (cs : list gstmt) : gout gflow :=
    match cs with
    | [] => GOk (GRunning s h)
    | c :: cs' => go f <- gexec s h c; match f with GRunning s' h' => block s' h' cs' | GReturned v h' => GOk (GReturned v h') end
    end in
  match c with
  | GAssign xs e => go p <- assign s h xs e; GOk (GRunning (fst p) (snd p))
  | GSetItem x i e => go h' <- set_item s h x i e; GOk (GRunning s h')
  | GAugItem x i o e =>
      go p <- load_item s h x i; go h' <- store_item s h (fst (fst p)) (snd (fst p)) (snd p) o e; GOk (GRunning s h')
  | GFor x it cs =>
      go vs <- giterate s h it;
      (fix loop (vs : list gvalue) (s : genv) (h : heap) : gout gflow :=
         match vs with
         | [] => GOk (GRunning s h)
         | v :: vs' => go f <- block (store x v s) h cs; match f with GRunning s' h' => loop vs' s' h' | GReturned v h' => GOk (GReturned v h') end
         end) vs s h
  | GReturn e => go v <- geval s h e; GOk (GReturned v h)
  end.
Fixpoint gexec_block (s : genv) (h : heap) (cs : list gstmt) : gout gflow :=
  match cs with
  | [] => GOk (GRunning s h)
  | c :: cs' => go f <- gexec s h c; match f with GRunning s' h' => gexec_block s' h' cs' | GReturned v h' => GOk (GReturned v h') end
  end.
Definition serial_call (d : gfundef) (args : list gvalue) (h : heap) : gout (gvalue * heap) :=
  go s <- gstore_all (g_params d) args [];
  go f <- gexec_block s h (g_body d);
  match f with GReturned v h' => GOk (v, h') | GRunning _ _ => Wrong end.

(** ** Threads

    An iteration of a parallel loop has its own variables and a list of tasks.  Steps of the
    iterations interleave arbitrarily; loading and storing in [x[i] += e] are two steps. *)
Inductive task : Type :=
| Do (c : gstmt)
| Loop (x : string) (vs : list gvalue) (body : list gstmt)
| Store (loc k : nat) (old : A) (o : binop) (e : gexpr).
Definition task_step (s : genv) (h : heap) (t : task) (rest : list task) : gout (genv * list task * heap) :=
  match t with
  | Do (GAssign xs e) => go p <- assign s h xs e; GOk (fst p, rest, snd p)
  | Do (GSetItem x i e) => go h' <- set_item s h x i e; GOk (s, rest, h')
  | Do (GAugItem x i o e) => go p <- load_item s h x i; GOk (s, Store (fst (fst p)) (snd (fst p)) (snd p) o e :: rest, h)
  | Do (GFor x it cs) => go vs <- giterate s h it; GOk (s, Loop x vs cs :: rest, h)
  | Do (GReturn _) => Wrong
  | Loop x [] cs => GOk (s, rest, h)
  | Loop x (v :: vs) cs => GOk (store x v s, (map Do cs ++ Loop x vs cs :: rest)%list, h)
  | Store loc k old o e => go h' <- store_item s h loc k old o e; GOk (s, rest, h')
  end.
Inductive gthread : Type :=
| GRun (s : genv) (tasks : list task)
| GFailed (e : pyexn).
Definition gconfig : Type := list gthread * heap.
Definition spawn (s : genv) (x : string) (vs : list gvalue) (cs : list gstmt) : list gthread :=
  map (fun v => GRun (store x v s) (map Do cs)) vs.
(** One step of some thread. *)
Inductive gstep : gconfig -> gconfig -> Prop :=
| gstep_run ths h i s t rest s' rest' h' :
    nth_error ths i = Some (GRun s (t :: rest)) -> task_step s h t rest = GOk (s', rest', h') ->
    gstep (ths, h) (replace_nth ths i (GRun s' rest'), h')
| gstep_fail ths h i s t rest e :
    nth_error ths i = Some (GRun s (t :: rest)) -> task_step s h t rest = GExn e ->
    gstep (ths, h) (replace_nth ths i (GFailed e), h).
Inductive gsteps : gconfig -> gconfig -> Prop :=
| gsteps_0 c : gsteps c c
| gsteps_S c c' c'' : gsteps c c' -> gstep c' c'' -> gsteps c c''.
(** The next step of some thread is an error. *)
Definition goes_wrong (c : gconfig) (o : gout (gvalue * heap)) : Prop :=
  exists i s t rest, nth_error (fst c) i = Some (GRun s (t :: rest)) /\
  ((task_step s (snd c) t rest = OutOfBounds /\ o = OutOfBounds) \/ (task_step s (snd c) t rest = Wrong /\ o = Wrong)).
Definition all_done (c : gconfig) : Prop := forall th, List.In th (fst c) -> exists s, th = GRun s [].
Definition all_stopped (c : gconfig) : Prop := forall th, List.In th (fst c) -> (exists s, th = GRun s []) \/ (exists e, th = GFailed e).

(** Any statement but a [prange] loop (one whose argument is not an int is an error like any other). *)
Definition runs_serially (s : genv) (h : heap) (c : gstmt) : Prop :=
  forall x it cs, c = GFor x it cs -> is_prange it = false \/ forall vs, giterate s h it <> GOk vs.
(** The outcomes of the body of a function compiled with [parallel=True]: its statements run in
    order; a [prange] loop among them ends when all its iterations have, with the exception of
    one of those that failed if there is one.  (A [prange] inside another loop is a [range].) *)
Inductive par_block : genv -> heap -> list gstmt -> gout (gvalue * heap) -> Prop :=
| par_end s h : par_block s h [] Wrong
| par_for s h x it cs rest vs c o :
    is_prange it = true -> giterate s h it = GOk vs ->
    gsteps (spawn s x vs cs, h) c -> all_done c -> par_block s (snd c) rest o ->
    par_block s h (GFor x it cs :: rest) o
| par_for_raise s h x it cs rest vs c e :
    is_prange it = true -> giterate s h it = GOk vs ->
    gsteps (spawn s x vs cs, h) c -> all_stopped c -> List.In (GFailed e) (fst c) ->
    par_block s h (GFor x it cs :: rest) (GExn e)
| par_for_wrong s h x it cs rest vs c o :
    is_prange it = true -> giterate s h it = GOk vs ->
    gsteps (spawn s x vs cs, h) c -> goes_wrong c o ->
    par_block s h (GFor x it cs :: rest) o
| par_stmt s h c rest s' h' o :
    runs_serially s h c ->
    gexec s h c = GOk (GRunning s' h') -> par_block s' h' rest o -> par_block s h (c :: rest) o
| par_return s h c rest v h' :
    runs_serially s h c -> gexec s h c = GOk (GReturned v h') -> par_block s h (c :: rest) (GOk (v, h'))
| par_error s h c rest o :
    runs_serially s h c ->
    ((exists e, gexec s h c = GExn e /\ o = GExn e) \/ (gexec s h c = OutOfBounds /\ o = OutOfBounds) \/ (gexec s h c = Wrong /\ o = Wrong)) ->
    par_block s h (c :: rest) o.
(** A schedule of a [prange] loop that never ends. *)
Definition endless (c0 : gconfig) : Prop := exists f : nat -> gconfig, f 0 = c0 /\ forall k, gstep (f k) (f (S k)).
Inductive par_endless : genv -> heap -> list gstmt -> Prop :=
| endless_here s h x it cs rest vs :
    is_prange it = true -> giterate s h it = GOk vs -> endless (spawn s x vs cs, h) -> par_endless s h (GFor x it cs :: rest)
| endless_after s h x it cs rest vs c :
    is_prange it = true -> giterate s h it = GOk vs -> gsteps (spawn s x vs cs, h) c -> all_done c ->
    par_endless s (snd c) rest -> par_endless s h (GFor x it cs :: rest)
| endless_later s h c rest s' h' :
    runs_serially s h c -> gexec s h c = GOk (GRunning s' h') -> par_endless s' h' rest -> par_endless s h (c :: rest).
End Body.

(** ** Calling a function of a document *)
Fixpoint find_def (f : string) (l : list gfundef) : option gfundef :=
  match l with
  | [] => None
  | d :: l' => if String.eqb f (g_name d) then Some d else find_def f l'
  end.
(** [guide_call package doc garbage f args h o]: calling [f], defined in the document, with
    [args] in the heap [h] can have the outcome [o] (a value and the heap afterwards). *)
Definition guide_call (package : list pymodule) (doc : gdoc) (garbage : nat -> A) (f : string) (args : list gvalue) (h : heap) (o : gout (gvalue * heap)) : Prop :=
  match find_def f (g_funs doc) with
  | None => o = Wrong
  | Some d =>
      match g_decorator d with
      | JitParallel =>
          match gstore_all (g_params d) args [] with
          | GOk s => par_block package (g_imports doc) garbage s h (g_body d) o
          | _ => o = Wrong
          end
      | _ => o = serial_call package (g_imports doc) garbage d args h
      end
  end.
(** Some schedule of the call never ends. *)
Definition guide_hangs (package : list pymodule) (doc : gdoc) (garbage : nat -> A) (f : string) (args : list gvalue) (h : heap) : Prop :=
  match find_def f (g_funs doc) with
  | Some d =>
      match g_decorator d, gstore_all (g_params d) args [] with
      | JitParallel, GOk s => par_endless package (g_imports doc) garbage s h (g_body d)
      | _, _ => False
      end
  | None => False
  end.
(** The same with [parallel=True] removed, or with Numba disabled: [prange] is [range]. *)
Definition guide_call_serial (package : list pymodule) (doc : gdoc) (garbage : nat -> A) (f : string) (args : list gvalue) (h : heap) : gout (gvalue * heap) :=
  match find_def f (g_funs doc) with
  | Some d => serial_call package (g_imports doc) garbage d args h
  | None => Wrong
  end.
End Semantics.
Arguments gvalue : clear implicits.
Arguments heap : clear implicits.
