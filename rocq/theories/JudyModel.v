(** Model of the Judy array (src/tpl/umpire/judy/judy.c) as MemoryMap opens it: depth 1, keys of 8
    bytes, little endian.  [judy_open] and [judy_alloc] succeed.

    A node is given by its contents rather than by its bytes.  The node a stack entry points to is
    found again by following the slots of the entries below it from the root. *)
From Verif Require Import Base MapModel.

Definition pw (ks : nat) : Z := 256 ^ Z.of_nat ks.

(** JudySize (judy.c:81-95) of JUDY_1 .. JUDY_32. *)
Definition jsize (ty : nat) : Z := 16 * 2 ^ (Z.of_nat ty - 1).

Definition JUDY_max : nat := 6.       (* judy.h:129: JUDY_32 *)

(** [cnt = size / (sizeof(JudySlot) + keysize)] (judy.c:491). *)
Definition jcnt (ty ks : nat) : Z := jsize ty / (8 + Z.of_nat ks).

Section Judy.
  Context {V : Type}.

  (** What a JudySlot can hold.  A linear node (JUDY_1 .. JUDY_32) has a list of slots, each a key
      and a cell; with depth 1 its cells are leaves (judy.c:525).  A radix node has two levels of 16
      entries (judy.c:537-574); they are merged here into one of 256: an inner node is only ever
      created to be filled at once (judy.c:727, 1422) and is freed with its last entry
      (judy.c:1183-1191).  Below a radix node at the last byte of the key are cells. *)
  Inductive jn : Type :=
  | JNil
  | JVal (v : V)
  | JLin (ty : nat) (slots : list (Z * option V))
  | JRad (kids : Z -> jn).

  Definition is_nil (n : jn) : bool := match n with JNil => true | _ => false end.

  (** The slots of the cursor stack, root first (judy.h:103-107); [level] is its length. *)
  Definition path : Type := list Z.

  (** The byte of the key a radix node looks at, [ks] bytes being left (judy.c:541). *)
  Definition kbyte (ks : nat) (k : Z) : Z := (k / pw (ks - 1)) mod 256.

  (** judy.c:509-520: the last slot whose key is at most [v]; -1 if there is none. *)
  Fixpoint scan (v : Z) (l : list (Z * option V)) (i best : Z) : Z :=
    match l with
    | [] => best
    | x :: t => scan v t (i + 1) (if fst x <=? v then i else best)
    end.

  Definition slot_key (sl : list (Z * option V)) (s : Z) : Z :=
    match nth_error sl (Z.to_nat s) with Some x => fst x | None => 0 end.
  Definition slot_cell (sl : list (Z * option V)) (s : Z) : option V :=
    match nth_error sl (Z.to_nat s) with Some x => snd x | None => None end.

  (** judy_slot (judy.c:440-600): the stack and the cell.  The C loop compares [test], which is
      the key of slot 0 when no slot was found. *)
  Fixpoint slot (n : jn) (ks : nat) (k : Z) : path * option path :=
    match n with
    | JNil | JVal _ => ([], None)
    | JLin _ sl =>
        let v := k mod pw ks in
        let s := scan v sl 0 (-1) in
        ([s], if (0 <=? s) && (slot_key sl s =? v) then Some [s] else None)
    | JRad kids =>
        let b := kbyte ks k in
        match kids b with
        | JNil => ([b], None)
        | JVal _ => ([b], Some [b])
        | _ => let '(p, r) := slot (kids b) (ks - 1) k in (b :: p, option_map (cons b) r)
        end
    end.

  (** Following a cell pointer. *)
  Fixpoint read (n : jn) (p : path) : option V :=
    match n, p with
    | JVal v, [] => Some v
    | JLin _ sl, [s] => slot_cell sl s
    | JRad kids, b :: q => read (kids b) q
    | _, _ => None
    end.

  Fixpoint set_nth {A : Type} (i : nat) (x : A) (l : list A) : list A :=
    match l, i with
    | [], _ => []
    | _ :: t, O => x :: t
    | y :: t, S j => y :: set_nth j x t
    end.

  Definition upd (kids : Z -> jn) (b : Z) (n : jn) : Z -> jn := fun x => if x =? b then n else kids x.

  Fixpoint write (n : jn) (p : path) (v : V) : jn :=
    match n, p with
    | JLin ty sl, [s] => JLin ty (set_nth (Z.to_nat s) (slot_key sl s, Some v) sl)
    | JRad kids, b :: q => JRad (upd kids b (write (kids b) q v))
    | JNil, [] => JVal v
    | JVal _, [] => JVal v
    | _, _ => n
    end.

  Definition bytes : list Z := map Z.of_nat (seq 0 256).

  Definition occupied (kids : Z -> jn) (b : Z) : bool := negb (is_nil (kids b)).

  (** judy_first (judy.c:775-846). *)
  Fixpoint first_live (sl : list (Z * option V)) (i : Z) : Z :=
    match sl with
    | [] => i
    | x :: t => match snd x with Some _ => i | None => first_live t (i + 1) end
    end.

  Fixpoint first (n : jn) : option path :=
    match n with
    | JNil | JVal _ => None
    | JLin _ sl => Some [first_live sl 0]
    | JRad kids =>
        match find (occupied kids) bytes with
        | Some b => match kids b with
                    | JVal _ => Some [b]
                    | _ => option_map (cons b) (first (kids b))
                    end
        | None => None
        end
    end.

  (** judy_last (judy.c:850-923): stack and cell.  In a radix node of cells the cell returned is
      [&inner[0]] (905), not the one the stack points to. *)
  Fixpoint last (n : jn) : option (path * path) :=
    match n with
    | JNil | JVal _ => None
    | JLin _ sl => let s := Z.of_nat (length sl) - 1 in Some ([s], [s])
    | JRad kids =>
        match find (occupied kids) (rev bytes) with
        | Some b => match kids b with
                    | JVal _ => Some ([b], [Z.land b 240])
                    | _ => option_map (fun x => (b :: fst x, b :: snd x)) (last (kids b))
                    end
        | None => None
        end
    end.

  (** judy_nxt (judy.c:934-1025): the stack, if there is a next cell (which is the one the stack
      points to).  The C loop pops stack entries; here the pops are the returns of the recursion. *)
  Fixpoint nxt (n : jn) (p : path) : option path :=
    match n, p with
    | JLin _ sl, [s] => if s + 1 <? Z.of_nat (length sl) then Some [s + 1] else None
    | JRad kids, b :: q =>
        match (match q with [] => None | _ => nxt (kids b) q end) with
        | Some q' => Some (b :: q')
        | None =>
            match find (fun x => (b <? x) && occupied kids x) bytes with
            | Some b' => match kids b' with
                         | JVal _ => Some [b']
                         | _ => option_map (cons b') (first (kids b'))
                         end
            | None => None
            end
        end
    | _, _ => None
    end.

  (** judy_prv (judy.c:1029-1108): stack and cell; again [&inner[0]] for cells of a radix node
      (1089).  For slot -1 the C code reads [node[1]], outside the node; MemoryMap only calls
      judy_prv after judy_strt, which leaves no such slot. *)
  Fixpoint prv (n : jn) (p : path) : option (path * path) :=
    match n, p with
    | JLin _ sl, [s] =>
        if s =? 0 then None
        else match slot_cell sl (s - 1) with
             | Some _ => Some ([s - 1], [s - 1])
             | None => None
             end
    | JRad kids, b :: q =>
        match (match q with [] => None | _ => prv (kids b) q end) with
        | Some x => Some (b :: fst x, b :: snd x)
        | None =>
            match find (fun x => (x <? b) && occupied kids x) (rev bytes) with
            | Some b' => match kids b' with
                         | JVal _ => Some ([b'], [Z.land b' 240])
                         | _ => option_map (fun x => (b' :: fst x, b' :: snd x)) (last (kids b'))
                         end
            | None => None
            end
        end
    | _, _ => None
    end.

  (** judy_del (judy.c:1113-1217): what is left of the node, and the stack. *)
  Fixpoint del (n : jn) (p : path) : jn * path :=
    match n, p with
    | JLin ty sl, [s] =>
        let sl' := (0, None) :: firstn (Z.to_nat s) sl ++ skipn (Z.to_nat s + 1) sl in
        match slot_cell sl' (Z.of_nat (length sl') - 1) with
        | Some _ => (JLin ty sl', [s + 1])
        | None => (JNil, [])
        end
    | JRad kids, b :: q =>
        let '(n', q') := del (kids b) q in
        let kids' := upd kids b n' in
        if is_nil n' then
          if existsb (occupied kids') bytes then (JRad kids', [b]) else (JNil, [])
        else (JRad kids', b :: q')
    | JVal _, [] => (JNil, [])
    | _, _ => (n, p)
    end.

  (** judy.c:736-741: the smallest linear node for [c] entries. *)
  Fixpoint fit (fuel ty : nat) (c : Z) (ks : nat) : nat :=
    match fuel with
    | O => ty
    | S f => if (jcnt ty ks <? c) && (Nat.ltb ty JUDY_max) then fit f (S ty) c ks else ty
    end.

  Definition empties (c : Z) : list (Z * option V) := repeat (0, None) (Z.to_nat c).

  (** judy_radix (judy.c:708-761) for the entries [g] of one byte; [ks] bytes are left below it. *)
  Definition group_node (ks : nat) (g : list (Z * option V)) : jn :=
    match g, ks with
    | [], _ => JNil
    | x :: _, O => match snd x with Some v => JVal v | None => JNil end
    | _, _ =>
        let c := Z.of_nat (length g) in
        let ty := fit JUDY_max 1 c ks in
        JLin ty (empties (jcnt ty ks - c) ++ map (fun x => (fst x mod pw ks, snd x)) g)
    end.

  (** judy_splitnode (judy.c:766-803).  The slots are sorted and all in use, so that the runs of one
      top byte are the entries having it. *)
  Definition split (ks : nat) (sl : list (Z * option V)) : Z -> jn :=
    fun b => group_node (ks - 1) (filter (fun x => fst x / pw (ks - 1) =? b) sl).

  (** judy_promote (judy.c:604-660), [i] entries staying below the new one. *)
  Definition promote (ty ks : nat) (sl : list (Z * option V)) (i : nat) (v : Z) : list (Z * option V) :=
    empties (jcnt (S ty) ks - jcnt ty ks - 1) ++ firstn i sl ++ (v, None) :: skipn i sl.

  (** judy_cell (judy.c:1272-1601): the array with a cell for the key, and the stack, which is also
      where the cell is. *)
  Fixpoint cell (ks : nat) (n : jn) (k : Z) : jn * path :=
    match ks with
    | O => (n, [])
    | S ks' =>
        let on_radix kids :=
          let b := kbyte ks k in
          let '(n', p) := cell ks' (kids b) k in (JRad (upd kids b n'), b :: p) in
        let v := k mod pw ks in
        match n with
        | JNil => (JLin 1 [(v, None)], [0])
        | JVal _ => (n, [])
        | JLin ty sl =>
            let s := scan v sl 0 (-1) in
            if (0 <=? s) && (slot_key sl s =? v) then (n, [s])
            else match slot_cell sl 0 with
                 | None => (JLin ty (firstn (Z.to_nat s) (tl sl) ++ (v, None) :: skipn (Z.to_nat s + 1) sl), [s])
                 | Some _ =>
                     if Nat.ltb ty JUDY_max
                     then (JLin (S ty) (promote ty ks sl (Z.to_nat (s + 1)) v), [jcnt (S ty) ks - jcnt ty ks - 1 + (s + 1)])
                     else on_radix (split ks sl)
                 end
        | JRad kids => on_radix kids
        end
    end.

  (** judy_key (judy.c:321-436): the bytes found along the stack, how many there are, and whether
      the whole key is there. *)
  Fixpoint pkey (ks : nat) (n : jn) (p : path) : Z * Z * bool :=
    match ks with
    | O => (0, 0, true)
    | S ks' =>
        match n, p with
        | JLin _ sl, s :: _ => (slot_key sl s, Z.of_nat ks, true)
        | JRad kids, b :: q => let '(v, l, f) := pkey ks' (kids b) q in (b * pw ks' + v, 1 + l, f)
        | _, _ => (0, 0, false)
        end
    end.

  (** Clearing byte [i] of a buffer. *)
  Definition clear_byte (x i : Z) : Z := x - (x / 256 ^ i mod 256) * 256 ^ i.

  Record judy : Type := mkJ { jroot : jn; jstack : path }.

  Definition keyof (j : judy) (buf : Z) : Z :=
    match jstack j with
    | [] => clear_byte buf 0
    | p => let '(v, l, f) := pkey 8 (jroot j) p in if f then v else clear_byte v l
    end.

  Definition jfirst (j : judy) : judy * option path :=
    match first (jroot j) with
    | Some p => (mkJ (jroot j) p, Some p)
    | None => (mkJ (jroot j) [], None)
    end.

  Definition jnxt (j : judy) : judy * option path :=
    match jstack j with
    | [] => jfirst j
    | p => match nxt (jroot j) p with
           | Some q => (mkJ (jroot j) q, Some q)
           | None => (mkJ (jroot j) [], None)
           end
    end.

  Definition jprv (j : judy) : judy * option path :=
    match (match jstack j with [] => last (jroot j) | p => prv (jroot j) p end) with
    | Some (p, l) => (mkJ (jroot j) p, Some l)
    | None => (mkJ (jroot j) [], None)
    end.

  Definition jslot (k : Z) (j : judy) : judy * option path :=
    let '(p, r) := slot (jroot j) 8 k in (mkJ (jroot j) p, r).

  (** judy_strt (judy.c:1221-1236). *)
  Definition jstrt (k : Z) (j : judy) : judy * option path :=
    let '(j', r) := jslot k j in
    match r with
    | Some l => (j', Some l)
    | None => jnxt j'
    end.

  Definition jcell (k : Z) (j : judy) : judy * path :=
    let '(n, p) := cell 8 (jroot j) k in (mkJ n p, p).

  Definition jdel (j : judy) : judy := let '(n, p) := del (jroot j) (jstack j) in mkJ n p.
End Judy.

Definition judy_array (V : Type) : Judy V :=
  mkJudy V (@judy V) path (mkJ JNil []) jcell jslot jstrt jfirst jnxt jprv jdel keyof
    (fun j l => read (jroot j) l) (fun j l v => mkJ (write (jroot j) l v) (jstack j)).
