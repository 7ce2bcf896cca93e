(** * Conditions and integer actions: /repo/xcsf/cond_dummy.c, cond_ternary.c,
    cond_rectangle.c, cond_ellipsoid.c, act_integer.c, utils.h:96-128. *)
From Coq Require Import ZArith Bool List.
From Flocq Require Import Core BinarySingleNaN.
From Verif Require Import Outcome F64 Rng Arr Sam Pop.
Import ListNotations.
Open Scope Z_scope.

(** condition.h:60-71 struct ArgsCond without the network and program parameters, and
    ea.h p_crossover. *)
Record cpar := mkCpar {
  cp_type : Z; cp_eta : f64; cp_max : f64; cp_min : f64; cp_p_dontcare : f64;
  cp_spread_min : f64; cp_bits : Z; ea_p_crossover : f64
}.

(** condition.h:29-36. *)
Definition COND_TYPE_DUMMY : Z := 0.
Definition COND_TYPE_HYPERRECTANGLE_CSR : Z := 1.
Definition COND_TYPE_HYPERRECTANGLE_UBR : Z := 2.
Definition COND_TYPE_HYPERELLIPSOID : Z := 3.
Definition COND_TYPE_NEURAL : Z := 4.
Definition COND_TYPE_GP : Z := 5.
Definition COND_TYPE_DGP : Z := 6.
Definition COND_TYPE_TERNARY : Z := 7.
Definition RULE_TYPE_DGP : Z := 11.
Definition RULE_TYPE_NEURAL : Z := 12.
Definition RULE_TYPE_NETWORK : Z := 13.

(** math.h fmin. *)
Definition fmin (x y : f64) : f64 :=
  if is_nan x then y else if is_nan y then x else if flt y x then y else x.

(** Character codes. *)
Definition ch0 : Z := 48.
Definition ch1 : Z := 49.
Definition DONT_CARE : Z := 35.

(** utils.h:112-125 float_to_binary: the digits are produced from the least significant,
    [binary[bits-1-i]].  [pow(2, bits)] is the libm oracle. *)
Fixpoint digits (n : nat) (a : Z) (acc : list Z) : list Z :=
  match n with
  | O => acc
  | S m => digits m (Z.quot a 2) (Z.rem a 2 + ch0 :: acc)
  end.
Definition float_to_binary (lm : libm) (f : f64) (bits : Z) : outcome (list Z) :=
  if fge f f1 then Ok (repeat ch1 (Z.to_nat bits))
  else if fle f f0 then Ok (repeat ch0 (Z.to_nat bits))
  else match to_int (fmul f (m_pow lm f2 (of_Z bits))) with
       | Some a => Ok (digits (Z.to_nat bits) a [])
       | None => UB BadCast
       end.

(** MU_TYPE of cond_ternary.c:36, cond_rectangle.c:34, cond_ellipsoid.c:34, act_integer.c:33. *)
Definition mu_type1 : list Z := [SAM_LOG_NORMAL].

Section Cond.
Context (K : cfg) (P : cpar).

Definition draw01 : RM f64 := rand_uniform f0 f1.

(** ** Ternary strings (cond_ternary.c); the length field is the length of the list.
    [tmp_input] is scratch space, written before every read. *)
Record ternary := mkTernary { t_string : list Z; t_mu : list f64 }.

(** cond_ternary.c:43-56 cond_ternary_rand: one character. *)
Definition ternary_rand1 : RM Z :=
  (u <- draw01 ;;
   if flt u (cp_p_dontcare P) then ret DONT_CARE
   else v <- draw01 ;; if flt v fhalf then ret ch0 else ret ch1)%rng.
Fixpoint ternary_rand (n : nat) : RM (list Z) :=
  match n with
  | O => ret []
  | S m => (c <- ternary_rand1 ;; r <- ternary_rand m ;; ret (c :: r))%rng
  end.

(** cond_ternary.c:63-74 cond_ternary_init. *)
Definition ternary_init : RM ternary :=
  (mu <- sam_init mu_type1 ;;
   s <- ternary_rand (Z.to_nat (x_dim K * cp_bits P)) ;;
   ret (mkTernary s mu))%rng.

(** cond_ternary.c:98-111 cond_ternary_copy. *)
Definition ternary_copy (src : ternary) : ternary := mkTernary (t_string src) (t_mu src).

(** cond_ternary.c:119-134 cond_ternary_cover. *)
Definition ternary_cover (c : ternary) (x : list f64) : RM ternary :=
  (s <- rfor (x_dim K) (fun i s =>
      xi <- lift (rd x i) ;;
      tmp <- lift (float_to_binary (lm K) xi (cp_bits P)) ;;
      rfor (cp_bits P) (fun j s =>
        u <- draw01 ;;
        if flt u (cp_p_dontcare P) then lift (wr s (i * cp_bits P + j) DONT_CARE)
        else v <- lift (rd tmp j) ;; lift (wr s (i * cp_bits P + j) v)) s) (t_string c) ;;
   ret (mkTernary s (t_mu c)))%rng.

(** cond_ternary.c:160-175 cond_ternary_match. *)
Definition ternary_match (c : ternary) (x : list f64) : outcome bool :=
  oall (x_dim K) (fun i =>
    (xi <- rd x i ;;
     tmp <- float_to_binary (lm K) xi (cp_bits P) ;;
     oall (cp_bits P) (fun j =>
       s <- rd (t_string c) (i * cp_bits P + j) ;;
       t <- rd tmp j ;;
       Ok (negb (negb (s =? DONT_CARE) && negb (s =? t)))))%out).

(** cond_ternary.c:184-202 cond_ternary_crossover. *)
Definition ternary_crossover (c1 c2 : ternary) : RM (ternary * ternary * bool) :=
  (u <- draw01 ;;
   if flt u (ea_p_crossover P) then
     r <- rfor (Z.of_nat (length (t_string c1))) (fun i (st : list Z * list Z * bool) =>
        let '(s1, s2, ch) := st in
        v <- draw01 ;;
        if flt v fhalf then
          a <- lift (rd s1 i) ;; b <- lift (rd s2 i) ;;
          s1' <- lift (wr s1 i b) ;; s2' <- lift (wr s2 i a) ;;
          ret (s1', s2', true)
        else ret st) (t_string c1, t_string c2, false) ;;
     (let '(s1, s2, ch) := r in
      ret (mkTernary s1 (t_mu c1), mkTernary s2 (t_mu c2), ch))
   else ret (c1, c2, false))%rng.

(** cond_ternary.c:210-228 cond_ternary_mutate. *)
Definition ternary_mutate (c : ternary) : RM (ternary * bool) :=
  (mu <- sam_adapt (lm K) mu_type1 (t_mu c) ;;
   m0 <- lift (rd mu 0) ;;
   r <- rfor (Z.of_nat (length (t_string c))) (fun i (st : list Z * bool) =>
      let '(s, ch) := st in
      u <- draw01 ;;
      if flt u m0 then
        a <- lift (rd s i) ;;
        v <- (if a =? DONT_CARE then (w <- draw01 ;; if flt w fhalf then ret ch0 else ret ch1)
              else ret DONT_CARE) ;;
        s' <- lift (wr s i v) ;; ret (s', true)
      else ret st) (t_string c, false) ;;
   (let '(s, ch) := r in ret (mkTernary s mu, ch)))%rng.

(** cond_ternary.c:237-255 cond_ternary_general: [None] is the early return false. *)
Fixpoint ternary_general_loop (n : nat) (i : Z) (s1 s2 : list Z) (general : bool) : outcome bool :=
  match n with
  | O => Ok general
  | S m => (a <- rd s1 i ;; b <- rd s2 i ;;
            if negb (a =? DONT_CARE) && negb (a =? b) then Ok false
            else ternary_general_loop m (i + 1) s1 s2 (if negb (a =? b) then true else general))%out
  end.
Definition ternary_general (c1 c2 : ternary) : outcome bool :=
  ternary_general_loop (length (t_string c1)) 0 (t_string c1) (t_string c2) false.

(** cond_ternary.c:276-282 cond_ternary_size. *)
Definition ternary_size (c : ternary) : f64 := of_Z (Z.of_nat (length (t_string c))).

(** ** Hyperrectangles (cond_rectangle.c).  [csr]: cond->type is the centre-spread form. *)
Record rect := mkRect { r_b1 : list f64; r_b2 : list f64; r_mu : list f64 }.
Definition csr : bool := cp_type P =? COND_TYPE_HYPERRECTANGLE_CSR.

(** cond_rectangle.c:47 and cond_ellipsoid.c:71: fabs(max - min). *)
Definition spread_max : f64 := fabs (fsub (cp_max P) (cp_min P)).
Definition rand_spread : RM f64 := rand_uniform (cp_spread_min P) spread_max.

(** malloc'ed arrays of x_dim doubles: every element is assigned before it is read. *)
Definition alloc_x : list f64 := repeat fnan (Z.to_nat (x_dim K)).

(** cond_rectangle.c:41-61 cond_rectangle_init. *)
Definition rect_init : RM rect :=
  ('(b1, b2) <- rfor (x_dim K) (fun i (st : list f64 * list f64) =>
      let '(b1, b2) := st in
      u <- rand_uniform (cp_min P) (cp_max P) ;; b1' <- lift (wr b1 i u) ;;
      v <- rand_uniform (cp_min P) (cp_max P) ;; b2' <- lift (wr b2 i v) ;;
      ret (b1', b2')) (alloc_x, alloc_x) ;;
   b2 <- (if csr then rfor (x_dim K) (fun i b2 => v <- rand_spread ;; lift (wr b2 i v)) b2
          else ret b2) ;;
   mu <- sam_init mu_type1 ;;
   ret (mkRect b1 b2 mu))%rng.

(** cond_rectangle.c:85-98 cond_rectangle_copy (memcpy of x_dim doubles). *)
Definition memcpy_x (l : list f64) : outcome (list f64) :=
  if Z.of_nat (length l) <? x_dim K then UB OutOfBounds else Ok (firstn (Z.to_nat (x_dim K)) l).
Definition rect_copy (src : rect) : outcome rect :=
  (b1 <- memcpy_x (r_b1 src) ;; b2 <- memcpy_x (r_b2 src) ;; Ok (mkRect b1 b2 (r_mu src)))%out.

(** cond_rectangle.c:106-125 cond_rectangle_cover. *)
Definition rect_cover (c : rect) (x : list f64) : RM rect :=
  ('(b1, b2) <- rfor (x_dim K) (fun i (st : list f64 * list f64) =>
      let '(b1, b2) := st in
      if csr then
        xi <- lift (rd x i) ;; b1' <- lift (wr b1 i xi) ;;
        v <- rand_spread ;; b2' <- lift (wr b2 i v) ;; ret (b1', b2')
      else
        r1 <- rand_spread ;; r2 <- rand_spread ;;
        xi <- lift (rd x i) ;;
        b1' <- lift (wr b1 i (fsub xi (fmul r1 fhalf))) ;;
        b2' <- lift (wr b2 i (fadd xi (fmul r2 fhalf))) ;;
        ret (b1', b2')) (r_b1 c, r_b2 c) ;;
   ret (mkRect b1 b2 (r_mu c)))%rng.

(** cond_rectangle.c:134-146 cond_rectangle_update. *)
Definition move_centre (b1 x : list f64) : outcome (list f64) :=
  ofor (x_dim K) (fun i b1 =>
    (b <- rd b1 i ;; xi <- rd x i ;; wr b1 i (fadd b (fmul (cp_eta P) (fsub xi b))))%out) b1.
Definition rect_update (c : rect) (x : list f64) : outcome rect :=
  if csr && fgt (cp_eta P) f0 then
    (b1 <- move_centre (r_b1 c) x ;; Ok (mkRect b1 (r_b2 c) (r_mu c)))%out
  else Ok c.

(** The interval bounds computed by match (lines 162-163, 170-171) and general
    (263-266, 273-276). *)
Definition lower (b1 b2 : f64) : f64 := if csr then fsub b1 b2 else fmin b1 b2.
Definition upper (b1 b2 : f64) : f64 := if csr then fadd b1 b2 else fmax b1 b2.

(** cond_rectangle.c:155-178 cond_rectangle_match. *)
Definition rect_match (c : rect) (x : list f64) : outcome bool :=
  oall (x_dim K) (fun i =>
    (b1 <- rd (r_b1 c) i ;; b2 <- rd (r_b2 c) i ;; xi <- rd x i ;;
     Ok (negb (flt xi (lower b1 b2) || fgt xi (upper b1 b2))))%out).

(** cond_rectangle.c:187-211 cond_rectangle_crossover; the same code with other field names
    is cond_ellipsoid.c:176-200. *)
Definition swap_arrays (a1 a2 b1 b2 : list f64) : RM ((list f64 * list f64) * (list f64 * list f64) * bool) :=
  rfor (x_dim K) (fun i (st : (list f64 * list f64) * (list f64 * list f64) * bool) =>
     let '((a1, a2), (b1, b2), ch) := st in
     u <- draw01 ;;
     st1 <- (if flt u fhalf then
               p <- lift (rd a1 i) ;; q <- lift (rd b1 i) ;;
               a1' <- lift (wr a1 i q) ;; b1' <- lift (wr b1 i p) ;; ret (a1', b1', true)
             else ret (a1, b1, ch)) ;;
     (let '(a1', b1', ch') := st1 in
      v <- draw01 ;;
      st2 <- (if flt v fhalf then
                p <- lift (rd a2 i) ;; q <- lift (rd b2 i) ;;
                a2' <- lift (wr a2 i q) ;; b2' <- lift (wr b2 i p) ;; ret (a2', b2', true)
              else ret (a2, b2, ch')) ;;
      (let '(a2', b2', ch'') := st2 in ret ((a1', a2'), (b1', b2'), ch''))))
    ((a1, a2), (b1, b2), false)%rng.
Definition rect_crossover (c1 c2 : rect) : RM (rect * rect * bool) :=
  (u <- draw01 ;;
   if flt u (ea_p_crossover P) then
     r <- swap_arrays (r_b1 c1) (r_b2 c1) (r_b1 c2) (r_b2 c2) ;;
     (let '((a1, a2), (b1, b2), ch) := r in
      ret (mkRect a1 a2 (r_mu c1), mkRect b1 b2 (r_mu c2), ch))
   else ret (c1, c2, false))%rng.

(** cond_rectangle.c:219-246 cond_rectangle_mutate: [true] if the loop changed a value
    ([orig != b[i]] is true when the new value is NaN). *)
Definition mutate_arrays (fix1 fix2 : f64 -> f64) (m0 : f64) (b1 b2 : list f64)
  : RM (list f64 * list f64 * bool) :=
  rfor (x_dim K) (fun i (st : list f64 * list f64 * bool) =>
     let '(b1, b2, ch) := st in
     o1 <- lift (rd b1 i) ;;
     z1 <- rand_normal (lm K) f0 m0 ;;
     (let v1 := fix1 (fadd o1 z1) in
      b1' <- lift (wr b1 i v1) ;;
      (let ch1 := if fne o1 v1 then true else ch in
       o2 <- lift (rd b2 i) ;;
       z2 <- rand_normal (lm K) f0 m0 ;;
       (let v2 := fix2 (fadd o2 z2) in
        b2' <- lift (wr b2 i v2) ;;
        ret (b1', b2', if fne o2 v2 then true else ch1))))) (b1, b2, false)%rng.
Definition clamp_range (v : f64) : f64 := clamp v (cp_min P) (cp_max P).
Definition fix_spread (v : f64) : f64 := fmax dbl_epsilon v.
Definition rect_mutate (c : rect) : RM (rect * bool) :=
  (mu <- sam_adapt (lm K) mu_type1 (r_mu c) ;;
   m0 <- lift (rd mu 0) ;;
   '(b1, b2, ch) <- mutate_arrays clamp_range (if csr then fix_spread else clamp_range) m0
                      (r_b1 c) (r_b2 c) ;;
   ret (mkRect b1 b2 mu, ch))%rng.

(** cond_rectangle.c:255-283 cond_rectangle_general. *)
Definition rect_general (c1 c2 : rect) : outcome bool :=
  oall (x_dim K) (fun i =>
    (a1 <- rd (r_b1 c1) i ;; a2 <- rd (r_b2 c1) i ;;
     d1 <- rd (r_b1 c2) i ;; d2 <- rd (r_b2 c2) i ;;
     Ok (negb (fgt (lower a1 a2) (lower d1 d2) || flt (upper a1 a2) (upper d1 d2))))%out).

(** cond_rectangle.c:304-309, cond_ellipsoid.c:287-292. *)
Definition rect_size : f64 := of_Z (x_dim K).

(** ** Hyperellipsoids (cond_ellipsoid.c). *)
Record ellip := mkEllip { e_center : list f64; e_spread : list f64; e_mu : list f64 }.

(** cond_ellipsoid.c:45-56 cond_ellipsoid_dist. *)
Definition ellip_dist (c : ellip) (x : list f64) : outcome f64 :=
  ofor (x_dim K) (fun i dist =>
    (xi <- rd x i ;; ci <- rd (e_center c) i ;; si <- rd (e_spread c) i ;;
     let d := fdiv (fsub xi ci) si in Ok (fadd dist (fmul d d)))%out) f0.

(** cond_ellipsoid.c:64-78 cond_ellipsoid_init. *)
Definition ellip_init : RM ellip :=
  ('(a, b) <- rfor (x_dim K) (fun i (st : list f64 * list f64) =>
      let '(a, b) := st in
      u <- rand_uniform (cp_min P) (cp_max P) ;; a' <- lift (wr a i u) ;;
      v <- rand_spread ;; b' <- lift (wr b i v) ;;
      ret (a', b')) (alloc_x, alloc_x) ;;
   mu <- sam_init mu_type1 ;;
   ret (mkEllip a b mu))%rng.

(** cond_ellipsoid.c:102-115 cond_ellipsoid_copy. *)
Definition ellip_copy (src : ellip) : outcome ellip :=
  (a <- memcpy_x (e_center src) ;; b <- memcpy_x (e_spread src) ;; Ok (mkEllip a b (e_mu src)))%out.

(** cond_ellipsoid.c:123-133 cond_ellipsoid_cover. *)
Definition ellip_cover (c : ellip) (x : list f64) : RM ellip :=
  ('(a, b) <- rfor (x_dim K) (fun i (st : list f64 * list f64) =>
      let '(a, b) := st in
      xi <- lift (rd x i) ;; a' <- lift (wr a i xi) ;;
      v <- rand_spread ;; b' <- lift (wr b i v) ;; ret (a', b')) (e_center c, e_spread c) ;;
   ret (mkEllip a b (e_mu c)))%rng.

(** cond_ellipsoid.c:142-153 cond_ellipsoid_update. *)
Definition ellip_update (c : ellip) (x : list f64) : outcome ellip :=
  if fgt (cp_eta P) f0 then
    (a <- move_centre (e_center c) x ;; Ok (mkEllip a (e_spread c) (e_mu c)))%out
  else Ok c.

(** cond_ellipsoid.c:162-167 cond_ellipsoid_match. *)
Definition ellip_match (c : ellip) (x : list f64) : outcome bool :=
  (d <- ellip_dist c x ;; Ok (flt d f1))%out.

(** cond_ellipsoid.c:176-200 cond_ellipsoid_crossover. *)
Definition ellip_crossover (c1 c2 : ellip) : RM (ellip * ellip * bool) :=
  (u <- draw01 ;;
   if flt u (ea_p_crossover P) then
     r <- swap_arrays (e_center c1) (e_spread c1) (e_center c2) (e_spread c2) ;;
     (let '((a1, a2), (b1, b2), ch) := r in
      ret (mkEllip a1 a2 (e_mu c1), mkEllip b1 b2 (e_mu c2), ch))
   else ret (c1, c2, false))%rng.

(** cond_ellipsoid.c:208-231 cond_ellipsoid_mutate. *)
Definition ellip_mutate (c : ellip) : RM (ellip * bool) :=
  (mu <- sam_adapt (lm K) mu_type1 (e_mu c) ;;
   m0 <- lift (rd mu 0) ;;
   '(a, b, ch) <- mutate_arrays clamp_range fix_spread m0 (e_center c) (e_spread c) ;;
   ret (mkEllip a b mu, ch))%rng.

(** cond_ellipsoid.c:240-266 cond_ellipsoid_general: the loop carries [temp]; [None] is the
    early return false. *)
Fixpoint ellip_general_loop (n : nat) (i : Z) (c1 c2 : ellip) (temp : list f64) : outcome bool :=
  match n with
  | O => Ok true
  | S m =>
    (a1 <- rd (e_center c1) i ;; a2 <- rd (e_center c2) i ;;
     s1 <- rd (e_spread c1) i ;; s2 <- rd (e_spread c2) i ;;
     if fne a1 a2 || fne s1 s2 then
       t <- rd temp i ;;
       temp1 <- wr temp i (fadd t s2) ;;
       d1 <- ellip_dist c1 temp1 ;;
       if fgt d1 f1 then Ok false else
       t1 <- rd temp1 i ;;
       temp2 <- wr temp1 i (fsub t1 (fmul f2 s2)) ;;
       d2 <- ellip_dist c1 temp2 ;;
       if fgt d2 f1 then Ok false else
       temp3 <- wr temp2 i a2 ;;
       ellip_general_loop m (i + 1) c1 c2 temp3
     else ellip_general_loop m (i + 1) c1 c2 temp)%out
  end.
Definition ellip_general (c1 c2 : ellip) : outcome bool :=
  (temp <- memcpy_x (e_center c2) ;; ellip_general_loop (Z.to_nat (x_dim K)) 0 c1 c2 temp)%out.

(** ** Integer actions (act_integer.c). *)
Record actint := mkAct { a_action : Z; a_mu : list f64 }.

(** act_integer.c:177-185. *)
Definition actint_init : RM actint :=
  (mu <- sam_init mu_type1 ;; a <- rand_uniform_int 0 (n_actions K) ;; ret (mkAct a mu))%rng.
(** act_integer.c:116-126. *)
Definition actint_copy (src : actint) : actint := mkAct (a_action src) (a_mu src).
(** act_integer.c:148-156. *)
Definition actint_cover (c : actint) (a : Z) : actint := mkAct a (a_mu c).
(** act_integer.c:100-108. *)
Definition actint_compute (c : actint) : Z := a_action c.
(** act_integer.c:59-70. *)
Definition actint_general (c1 c2 : actint) : bool :=
  if negb (a_action c1 =? a_action c2) then false else true.
(** act_integer.c:78-91. *)
Definition actint_mutate (c : actint) : RM (actint * bool) :=
  (mu <- sam_adapt (lm K) mu_type1 (a_mu c) ;;
   m0 <- lift (rd mu 0) ;;
   u <- draw01 ;;
   if flt u m0 then
     a <- rand_uniform_int 0 (n_actions K) ;;
     ret (mkAct a mu, if negb (a_action c =? a) then true else false)
   else ret (mkAct (a_action c) mu, false))%rng.
End Cond.
