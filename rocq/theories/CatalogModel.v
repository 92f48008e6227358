(** Model of the catalogue of memory resources (src/umpire/resource/MemoryResourceRegistry.cpp and the
    factories) and of the device a resource name stands for (MemoryResourceTypes.hpp:108-140).  A factory is told
    apart by what it makes; the traits are left out except the device id. *)
From Coq Require Import String Ascii.
From Verif Require Import Base NamingModel RegistryModel.

(** The programming models that bring resources of their own. *)
Inductive vendor : Type := VCuda | VHip | VSycl | VOmp.

Inductive factory : Type :=
| FHost | FNoOp | FNull | FShared | FFile
| FDevice (v : vendor) | FUnified (v : vendor) | FPinned (v : vendor) | FConst (v : vendor).

(** How the library was built and what was found at run time.  [None] for a vendor: not built in, or no
    device detected.  [hip]: the number of devices, and whether coherence granularity is built in and
    supported. *)
Record build : Type := mkBuild {
  b_noop : bool;               (** UMPIRE_ENABLE_DEVELOPER_BENCHMARKS *)
  b_shared : bool;             (** UMPIRE_ENABLE_IPC_SHARED_MEMORY *)
  b_file : bool;               (** UMPIRE_ENABLE_FILE_RESOURCE *)
  b_const : bool;              (** UMPIRE_ENABLE_CONST *)
  b_cuda : option nat;
  b_hip : option (nat * bool);
  b_sycl : option nat;
  b_omp : option nat
}.

Definition when {A : Type} (c : bool) (l : list A) : list A := if c then l else [].

(** MemoryResourceRegistry.cpp:116, 154, 216, 233: the name of device number [d]. *)
Definition device_name (d : nat) : string := ("DEVICE::" ++ dec (Z.of_nat d))%string.

(** 153-163 *)
Definition hip_device_names (fine : bool) (n : nat) : list string :=
  flat_map (fun d => device_name d :: when fine [(device_name d ++ "::FINE")%string; (device_name d ++ "::COARSE")%string]) (seq 0 n).

(** 83-244, [m_resource_names]. *)
Definition names (b : build) : list string :=
  (["HOST"%string] ++ when (b_noop b) ["NO_OP"%string] ++ when (b_shared b) ["SHARED"%string] ++ when (b_file b) ["FILE"%string] ++
  match b_cuda b with
  | None => []
  | Some n => ["DEVICE"%string] ++ map device_name (seq 0 n) ++ ["UM"%string; "PINNED"%string] ++ when (b_const b) ["DEVICE_CONST"%string]
  end ++
  match b_hip b with
  | None => []
  | Some (n, fine) =>
      ["DEVICE"%string] ++ when fine ["DEVICE::FINE"%string; "DEVICE::COARSE"%string] ++ hip_device_names fine n ++
      ["UM"%string] ++ when fine ["UM::FINE"%string; "UM::COARSE"%string] ++ ["PINNED"%string] ++ when fine ["PINNED::FINE"%string; "PINNED::COARSE"%string] ++
      when (b_const b) ["DEVICE_CONST"%string]
  end ++
  match b_sycl b with
  | None => []
  | Some n => ["DEVICE"%string] ++ map device_name (seq 0 n) ++ ["UM"%string; "PINNED"%string]
  end ++
  match b_omp b with
  | None => []
  | Some n => map device_name (seq 0 n) ++ ["DEVICE"%string]
  end)%list.

(** The same lines, [m_allocator_factories]. *)
Definition factories (b : build) : list factory :=
  [FHost] ++ when (b_noop b) [FNoOp] ++ [FNull] ++ when (b_shared b) [FShared] ++ when (b_file b) [FFile] ++
  match b_cuda b with
  | None => []
  | Some _ => [FDevice VCuda; FUnified VCuda; FPinned VCuda] ++ when (b_const b) [FConst VCuda]
  end ++
  match b_hip b with
  | None => []
  | Some _ => [FDevice VHip; FUnified VHip; FPinned VHip] ++ when (b_const b) [FConst VHip]
  end ++
  match b_sycl b with
  | None => []
  | Some _ => [FDevice VSycl; FUnified VSycl; FPinned VSycl]
  end ++
  match b_omp b with
  | None => []
  | Some _ => [FDevice VOmp]
  end.

(** The functions isValidMemoryResourceFor of the factories: HostResourceFactory.cpp:26-33,
    NoOpResourceFactory.cpp:17-23, NullMemoryResourceFactory.cpp:16-23, HostSharedMemoryResourceFactory.cpp:17-24,
    FileMemoryResourceFactory.cpp:16-23, CudaDeviceResourceFactory.cpp:19-26 (HIP, SYCL and OpenMP the same),
    CudaUnifiedMemoryResourceFactory.cpp:19-26, CudaPinnedMemoryResourceFactory.cpp:16-23,
    CudaConstantMemoryResourceFactory.cpp:16-23. *)
Definition f_valid (f : factory) (x : string) : bool :=
  match f with
  | FHost => contains x "HOST"
  | FNoOp => contains x "NO_OP"
  | FNull => (x =? "__umpire_internal_null")%string
  | FShared => contains x "SHARED"
  | FFile => contains x "FILE"
  | FDevice _ => negb (contains x "CONST") && contains x "DEVICE"
  | FUnified _ => contains x "UM"
  | FPinned _ => contains x "PINNED"
  | FConst _ => (x =? "DEVICE_CONST")%string
  end.

(** 251-261, 263-274, 276-285: the first factory that accepts the name; [None]: throws. *)
Definition make_memory_resource (b : build) (x : string) : option factory :=
  find (fun f => f_valid f x) (factories b).

(** What the registry of allocators (RegistryModel.v) sees of it. *)
Definition any_valid (b : build) (x : string) : bool :=
  match make_memory_resource b x with Some _ => true | None => false end.

(** ** resource_to_device_id *)

Definition is_digit (c : ascii) : bool := (48 <=? Z.of_nat (nat_of_ascii c)) && (Z.of_nat (nat_of_ascii c) <=? 57).
(** isspace in the "C" locale *)
Definition is_space (c : ascii) : bool :=
  let k := Z.of_nat (nat_of_ascii c) in (k =? 32) || ((9 <=? k) && (k <=? 13)).
Definition digit_val (c : ascii) : Z := Z.of_nat (nat_of_ascii c) - 48.

Fixpoint skip_space (s : string) : string :=
  match s with
  | EmptyString => EmptyString
  | String c t => if is_space c then skip_space t else s
  end.

Fixpoint dec_val (acc : Z) (s : string) : Z :=
  match s with
  | EmptyString => acc
  | String c t => if is_digit c then dec_val (10 * acc + digit_val c) t else acc
  end.

(** std::stoi: [None] when it throws (no digit, or out of range). *)
Definition stoi (s : string) : option Z :=
  let s1 := skip_space s in
  let '(neg, s2) := match s1 with
                    | String c t => if Ascii.eqb c "-" then (true, t) else if Ascii.eqb c "+" then (false, t) else (false, s1)
                    | EmptyString => (false, s1)
                    end in
  match s2 with
  | String c _ =>
      if is_digit c then
        let v := if neg then - dec_val 0 s2 else dec_val 0 s2 in
        if (- 2^31 <=? v) && (v <=? INT_MAX) then Some v else None
      else None
  | EmptyString => None
  end.

(** The longest prefix of digits and the rest. *)
Fixpoint span_digits (l : list ascii) : list ascii * list ascii :=
  match l with
  | c :: t => if is_digit c then let (a, r) := span_digits t in (c :: a, r) else ([], l)
  | [] => ([], [])
  end.

(** std::regex_match against ".*::(\d+)": the digits at the end, preceded by "::" and characters that are
    not line terminators. *)
Definition regex_id (s : string) : option string :=
  match span_digits (rev (list_ascii_of_string s)) with
  | (c :: ds, ":"%char :: ":"%char :: pre) =>
      if forallb (fun a => negb (Ascii.eqb a "010" || Ascii.eqb a "013")) pre
      then Some (string_of_list_ascii (rev (c :: ds))) else None
  | _ => None
  end.

(** MemoryResourceTypes.hpp:108-140.  [cuda]: built with CUDA.  [cur]: the device the vendor's library reports as current
    (0 without CUDA and HIP). *)
Definition device_id (cuda : bool) (cur : Z) (x : string) : option Z :=
  if cuda then
    match index 0 "::" x with
    | Some k => stoi (substring (k + 2) (String.length x - (k + 2)) x)
    | None => Some cur
    end
  else
    match regex_id x with
    | Some d => stoi d
    | None => Some cur
    end.
