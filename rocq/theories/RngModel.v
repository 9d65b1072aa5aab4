(** Model of /repo/src/pyhipp/stats/random.py (Rng and the numba class _Rng).

    numpy's Generator is a parameter: a state, the state for a seed, a source of 53-bit integers and a source of standard normal
    numbers; nothing else is assumed about it.  A uniform number is low + (high - low) * k / 2^53, computed exactly (numpy rounds
    the product and the sum to binary64).  Arrays are a shape and the entries in C order; [size=None] is the empty shape, whose
    single entry is a Python float.  choice, permutation and shuffle only forward to numpy and are not modelled here. *)
From Coq Require Import Reals.
From Verif Require Import Base FrameModel.
Local Open Scope list_scope. Local Open Scope R_scope.

(** random.py:82-133, the arrays returned. *)
Record nd := { shape : list nat; data : list R }.
(** random.py:82-133, the size argument: None or a shape. *)
Definition size_arg := option (list nat).
(** random.py:82-133, the shape it stands for. *)
Definition dims (s : size_arg) : list nat := match s with Some l => l | None => [] end.
(** random.py:82-133, how many numbers are drawn. *)
Definition count (s : size_arg) : nat := fold_right Nat.mul 1%nat (dims s).
(** random.py:70-80: numpy.random.Generator *)
Record source (St : Type) := { seeded : Z -> St; bits53 : St -> Z * St; std_normal : St -> R * St }.
Arguments seeded {St}. Arguments bits53 {St}. Arguments std_normal {St}.
(** random.py:82-94, numbers drawn one after the other. *)
Fixpoint draws {St A} (next : St -> A * St) (n : nat) (s : St) : list A * St :=
  match n with O => ([], s) | S n' => let '(a, s1) := next s in let '(l, s2) := draws next n' s1 in (a :: l, s2) end.
(** numpy: a double in [0, 1) from 53 bits (random.py:82-84). *)
Definition unit_of (k : Z) : R := IZR k / 2 ^ 53.
(** random.py:82-94, 22-34: random, uniform; standard_normal, normal *)
Definition g_uniform {St} (g : source St) (low high : R) (size : size_arg) (s : St) : nd * St :=
  let '(l, s') := draws (bits53 g) (count size) s in ({| shape := dims size; data := map (fun k => low + (high - low) * unit_of k) l |}, s').
(** random.py:82-84. *)
Definition g_random {St} (g : source St) (size : size_arg) (s : St) : nd * St :=
  let '(l, s') := draws (bits53 g) (count size) s in ({| shape := dims size; data := map unit_of l |}, s').
(** random.py:90-91. *)
Definition g_standard_normal {St} (g : source St) (size : size_arg) (s : St) : nd * St :=
  let '(l, s') := draws (std_normal g) (count size) s in ({| shape := dims size; data := l |}, s').
(** random.py:93-94. *)
Definition g_normal {St} (g : source St) (loc scale : R) (size : size_arg) (s : St) : nd * St :=
  let '(l, s') := draws (std_normal g) (count size) s in ({| shape := dims size; data := map (fun x => loc + scale * x) l |}, s').

(** random.py:124-127, core/dataproc/frame.py:5-22: np.stack(out, axis=-1) of arrays of one shape. *)
Definition stack_last (l : list nd) : nd :=
  match l with
  | [] => {| shape := []; data := [] |}
  | a :: _ => {| shape := shape a ++ [length l]; data := flat_map (fun i => map (fun b => nth i (data b) 0) l) (seq 0 (length (data a))) |}
  end.
(** random.py:113-133, one array or a tuple of arrays. *)
Inductive out := Arr (a : nd) | Tup (l : list nd).
(** random.py:124-127, core/dataproc/frame.py:5-22, stack or not. *)
Definition pack (stack : bool) (l : list nd) : out := if stack then Arr (stack_last l) else Tup l.
(** random.py:119, element-wise. *)
Definition nmap (f : R -> R) (a : nd) : nd := {| shape := shape a; data := map f (data a) |}.
(** random.py:54-64, element-wise. *)
Definition nmap2 (f : R -> R -> R) (a b : nd) : nd := {| shape := shape a; data := map (fun p => f (fst p) (snd p)) (combine (data a) (data b)) |}.
(** core/dataproc/frame.py:5-22 Polar.unit_vec_to_cart, unit_vec_to_cart_2d on arrays; entry by entry these are FrameModel's. *)
Definition to_cart (theta phi : nd) (stack : bool) : out :=
  let cos_t := nmap cos theta in let sin_t := nmap sin theta in let cos_p := nmap cos phi in let sin_p := nmap sin phi in
  let z := cos_t in let x := nmap2 Rmult sin_t cos_p in let y := nmap2 Rmult sin_t sin_p in pack stack [x; y; z].
(** core/dataproc/frame.py:17-22. *)
Definition to_cart_2d (theta : nd) (stack : bool) : out := pack stack [nmap cos theta; nmap sin theta].
(** random.py:113-127 uniform_sphere *)
Definition g_sphere {St} (g : source St) (size : size_arg) (stack cartesian : bool) (s : St) : out * St :=
  let '(cos_theta, s1) := g_uniform g (-1) 1 size s in
  let '(phi, s2) := g_uniform g 0 (2 * PI) size s1 in
  let theta := nmap acos cos_theta in
  (if cartesian then to_cart theta phi stack else pack stack [theta; phi], s2).
(** random.py:129-133 uniform_circle: without [cartesian] the angles, whatever [stack] is. *)
Definition g_circle {St} (g : source St) (size : size_arg) (stack cartesian : bool) (s : St) : out * St :=
  let '(theta, s1) := g_uniform g 0 (2 * PI) size s in
  (if cartesian then to_cart_2d theta stack else Arr theta, s1).
(** random.py:36-64: _Rng.lg_normal; 44-52 _Rng.uniform_sphere_polar; 54-64 _Rng.uniform_sphere_cart *)
Definition j_lg_normal {St} (g : source St) (loc scale : R) (size : size_arg) (s : St) : nd * St :=
  let '(lg_rv, s1) := g_normal g loc scale size s in (nmap (Rpower 10) lg_rv, s1).
(** random.py:44-52. *)
Definition j_sphere_polar {St} (g : source St) (size : size_arg) (s : St) : nd * nd * St :=
  let '(cos_theta, s1) := g_uniform g (-1) 1 size s in
  let '(phi, s2) := g_uniform g 0 (2 * PI) size s1 in
  (nmap acos cos_theta, phi, s2).
(** random.py:54-64. *)
Definition j_sphere_cart {St} (g : source St) (size : size_arg) (s : St) : list nd * St :=
  let '(theta, phi, s2) := j_sphere_polar g size s in
  let cos_t := nmap cos theta in let sin_t := nmap sin theta in let cos_p := nmap cos phi in let sin_p := nmap sin phi in
  ([nmap2 Rmult sin_t cos_p; nmap2 Rmult sin_t sin_p; cos_t], s2).

(** ** Objects: generators live in a store, an Rng refers to one (random.py:66-80). *)
(** random.py:66-80. *)
Inductive seed_arg := SNone (entropy : Z) | SInt (z : Z) | SGen (r : nat) | SRng (r : nat) | SOther.
(** random.py:70-80: [SNone] carries the entropy the operating system happens to give; [SOther] is any other object, numpy integers included;
    SeedSequence refuses negative integers.  The result is the generator the new Rng refers to. *)
Definition rng_init {St} (g : source St) (h : list St) (a : seed_arg) : result (nat * list St) :=
  match a with
  | SGen r | SRng r => Ok (r, h)
  | SNone e => Ok (length h, h ++ [seeded g e])
  | SInt z => if Z.ltb z 0 then Err ValueError else Ok (length h, h ++ [seeded g z])
  | SOther => Err AssertionError
  end.
(** random.py:70. *)
Definition default_seed : seed_arg := SInt 0.
(** random.py:22-64, 82-133: A method call on an Rng, on a _Rng, or on the generator itself: what it returns and the state it leaves. *)
Inductive call :=
| KRandom (size : size_arg) | KUniform (low high : R) (size : size_arg) | KStdNormal (size : size_arg) | KNormal (loc scale : R) (size : size_arg)
| KSphere (size : size_arg) (stack cartesian : bool) | KCircle (size : size_arg) (stack cartesian : bool)
| KJitLgNormal (loc scale : R) (size : size_arg) | KJitPolar (size : size_arg) | KJitCart (size : size_arg).
(** random.py:22-64, 82-133. *)
Definition run {St} (g : source St) (c : call) (s : St) : out * St :=
  match c with
  | KRandom n => let '(a, s1) := g_random g n s in (Arr a, s1)
  | KUniform l h n => let '(a, s1) := g_uniform g l h n s in (Arr a, s1)
  | KStdNormal n => let '(a, s1) := g_standard_normal g n s in (Arr a, s1)
  | KNormal l h n => let '(a, s1) := g_normal g l h n s in (Arr a, s1)
  | KSphere n st ca => g_sphere g n st ca s
  | KCircle n st ca => g_circle g n st ca s
  | KJitLgNormal l h n => let '(a, s1) := j_lg_normal g l h n s in (Arr a, s1)
  | KJitPolar n => let '(a, b, s1) := j_sphere_polar g n s in (Tup [a; b], s1)
  | KJitCart n => let '(l, s1) := j_sphere_cart g n s in (Tup l, s1)
  end.
(** random.py:66-133: A program: making Rng objects and calling methods on them; objects are numbered in the order they are made, failed
    constructions leave nothing.  A trace lists for every call the generator it used and what it returned. *)
Inductive action := Make (a : seed_arg) | Call (obj : nat) (c : call).
(** random.py:66-80, the generators and the Rng objects. *)
Record rstate (St : Type) := { gens : list St; objs : list nat }.
Arguments gens {St}. Arguments objs {St}. Arguments Build_rstate {St}.
(** random.py:74-75: Resolve [SRng], given as the number of an Rng object, to its generator. *)
Definition resolve {St} (w : rstate St) (a : seed_arg) : seed_arg := match a with SRng o => match nth_error (objs w) o with Some r => SRng r | None => SOther end | _ => a end.
(** random.py:66-133, one action. *)
Definition act {St} (g : source St) (w : rstate St) (x : action) : rstate St * list (nat * call * out) :=
  match x with
  | Make a => match rng_init g (gens w) (resolve w a) with Ok (r, h) => (Build_rstate h (objs w ++ [r]), []) | Err _ => (w, []) end
  | Call o c => match nth_error (objs w) o with
                | Some r => match nth_error (gens w) r with
                            | Some s => let '(v, s1) := run g c s in (Build_rstate (upd_nth (gens w) r s1) (objs w), [(r, c, v)])
                            | None => (w, [])
                            end
                | None => (w, [])
                end
  end.
(** random.py:66-133, a whole program. *)
Fixpoint acts {St} (g : source St) (w : rstate St) (l : list action) : rstate St * list (nat * call * out) :=
  match l with [] => (w, []) | x :: l' => let '(w1, t1) := act g w x in let '(w2, t2) := acts g w1 l' in (w2, t1 ++ t2) end.
