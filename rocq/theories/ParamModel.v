(* Function parameters: src/clReflectUtil/SerialiseFunction.cpp, inc/clutl/SerialiseFunction.h. The WriteBuffer that holds
   the objects is that of BufferModel.v for its size and position; the bytes are those of a memory, as in JsonObjModel.v.
   Not modelled: CallFunction_x86_32_msvc_* (inline assembly). *)
From Verif Require Import Base Text DatabaseModel SearchModel BufferModel JsonLexModel JsonNumModel JsonObjModel.

(* what a parameter's Field says: position in the call (offset), type, qualifier. It has no container info *)
Record param := mk_param { pr_offset : Z; pr_type : nat; pr_op : qop }.
Definition is_pointer (op : qop) : bool := match op with POINTER => true | _ => false end.
Definition as_field (p : param) : rfield := mk_rfield [] (pr_offset p) 0 (pr_type p) (is_pointer (pr_op p)) None.

(* SerialiseFunction.h:43-51 *)
Definition MAX_NB_FIELDS : Z := 16.
Record pdesc := mk_pdesc { pd_type : nat; pd_op : qop; pd_object : Z }.

(* what can be observed: calls of constructors and destructors on objects of a type, blocks of memory allocated (with their
   size) and freed *)
Inductive event :=
| Constructed (ty : nat) (object : Z)
| Destroyed (ty : nat) (object : Z)
| Allocated (block : nat) (size : Z)
| Freed (block : nat).

(* a ParameterObjectCache, memory and the events so far. pw_block is the number of blocks allocated so far; pw_descs is
   m_ParameterData, where None has never been written *)
Record pworld := mk_pw { pw_data : wbuf; pw_block : nat; pw_descs : list (option pdesc); pw_nb : Z; pw_mem : list Z; pw_log : list event }.
(* SerialiseFunction.cpp:26-29 with a default WriteBuffer *)
Definition poc_new (mem : list Z) : pworld := mk_pw wb_default 0 (repeat None (Z.to_nat MAX_NB_FIELDS)) 0 mem [].

Section Cache.
Variable fuel : nat.
Variable E : list rtype.
(* the constructor and destructor of a class or template type, if it has one, by what it does to memory; types of other
   kinds have none *)
Variable ctor dtor : nat -> option (Z -> list Z -> list Z).
(* the address the allocator gives each block *)
Variable at_ : nat -> Z.

(* m_data: null at first *)
Definition base_of (w : pworld) : Z := match wb_data (pw_data w) with None => 0 | Some _ => at_ (pw_block w) end.
(* Serialise.cpp:43-75 WriteBuffer::Alloc. A new block gets what has been written in the old one *)
Definition data_alloc (w : pworld) (length : Z) : outcome (Z * pworld) :=
  let b := pw_data w in
  do x <- wb_alloc fuel b length;
  if wb_pos b + length >? zlen (wb_cells b) then
    let block := S (pw_block w) in
    do mem <- (if wb_pos b =? 0 then Ok (pw_mem w)
               else do old <- rd_bytes (pw_mem w) (base_of w) (wb_pos b); wr_bytes (pw_mem w) (at_ block) old);
    let log := Allocated block (zlen (wb_cells (snd x))) :: match wb_data b with None => [] | Some _ => [Freed (pw_block w)] end in
    Ok (at_ block + fst x, mk_pw (snd x) block (pw_descs w) (pw_nb w) mem (pw_log w ++ log))
  else Ok (base_of w + fst x, mk_pw (snd x) (pw_block w) (pw_descs w) (pw_nb w) (pw_mem w) (pw_log w)).
(* Serialise.cpp:38-41 *)
Definition data_reset (w : pworld) : pworld :=
  mk_pw (wb_reset (pw_data w)) (pw_block w) (pw_descs w) (pw_nb w) (pw_mem w) (pw_log w).

(* 31-34 *)
Definition params_reset (w : pworld) : pworld := mk_pw (pw_data w) (pw_block w) (pw_descs w) 0 (pw_mem w) (pw_log w).
(* 36-44 *)
Definition PushParameter (w : pworld) (d : pdesc) : outcome pworld :=
  do _ <- assert (pw_nb w <? MAX_NB_FIELDS);
  do ds <- wr (pw_descs w) (pw_nb w) (Some d);
  Ok (mk_pw (pw_data w) (pw_block w) ds (u32 (pw_nb w + 1)) (pw_mem w) (pw_log w)).
(* 46-49 *)
Definition GetNbParameters (w : pworld) : Z := pw_nb w.
(* 51-63: the number of parameters is asserted, not the index *)
Definition GetParameter (w : pworld) (index : Z) : outcome pdesc :=
  do _ <- assert (pw_nb w <? MAX_NB_FIELDS);
  do d <- rd (pw_descs w) index;
  match d with Some d => Ok d | None => UB end.

(* 16-22 ParamAllocSize *)
Definition ParamAllocSize (p : param) : outcome Z :=
  do t <- get_type E (pr_type p);
  Ok (if is_pointer (pr_op p) then 8 else u32 (rt_size t)).
Fixpoint total_size_of (ps : list param) (total : Z) : outcome Z :=
  match ps with
  | [] => Ok total
  | p :: r => do s <- ParamAllocSize p; total_size_of r (u32 (total + s))
  end.

(* 127-154 DeleteObjects: the loop from i with n rounds left *)
Fixpoint delete_from (n : nat) (i : Z) (w : pworld) : outcome pworld :=
  match n with
  | O => Ok w
  | S n =>
      do d <- GetParameter w i;
      let w := if is_pointer (pd_op d) then w
               else match dtor (pd_type d) with
                    | Some run => mk_pw (pw_data w) (pw_block w) (pw_descs w) (pw_nb w) (run (pd_object d) (pw_mem w)) (pw_log w ++ [Destroyed (pd_type d) (pd_object d)])
                    | None => w
                    end in
      delete_from n (i + 1) w
  end.
Definition DeleteObjects (w : pworld) : outcome pworld := delete_from (Z.to_nat (GetNbParameters w)) 0 w.

(* 70-87 Init *)
Definition poc_Init (w : pworld) (parameters : list param) : outcome pworld :=
  do w <- DeleteObjects w;
  do total <- total_size_of parameters 0;
  do x <- data_alloc (data_reset w) total;
  Ok (params_reset (data_reset (snd x))).
(* 89-120 AllocParameter *)
Definition AllocParameter (w : pworld) (p : param) : outcome (Z * pworld) :=
  do s <- ParamAllocSize p;
  do x <- data_alloc w s;
  let w := snd x in
  let w := if is_pointer (pr_op p) then w
           else match ctor (pr_type p) with
                | Some run => mk_pw (pw_data w) (pw_block w) (pw_descs w) (pw_nb w) (run (fst x) (pw_mem w)) (pw_log w ++ [Constructed (pr_type p) (fst x)])
                | None => w
                end in
  do w <- PushParameter w (mk_pdesc (pr_type p) (pr_op p) (fst x));
  Ok (fst x, w).
(* 65-68 the destructor, then that of m_Data (Serialise.cpp:33-36) *)
Definition poc_destroy (w : pworld) : outcome pworld :=
  do w <- DeleteObjects w;
  match wb_data (pw_data w) with
  | None => Ok w
  | Some _ => Ok (mk_pw wb_default (pw_block w) (pw_descs w) (pw_nb w) (pw_mem w) (pw_log w ++ [Freed (pw_block w)]))
  end.

(* ---- 156-196 BuildParameterObjectCache_JSON ---- *)
(* 163-172: sorted_fields; None has never been written. offset is an int *)
Fixpoint sort_fields (ps : list param) (sorted : list (option param)) : outcome (list (option param)) :=
  match ps with
  | [] => Ok sorted
  | p :: r =>
      do _ <- assert (pr_offset p <? MAX_NB_FIELDS);
      do sorted <- wr sorted (pr_offset p) (Some p);
      sort_fields r sorted
  end.
Variable F : floats.
Variable data : list Z.
Variable transient_flags : Z.
(* SerialiseJSON.cpp:562-570 LoadJSON of a field: the context and memory. The token looked ahead is lost *)
Definition LoadJSON_field (n : nat) (c : jctx) (mem : list Z) (object : Z) (f : rfield) : outcome (jctx * list Z) :=
  do lut <- SetupTypeDispatchLUT;
  do s <- next F data (mk_ps no_token c mem);
  do s <- ParserValue E F lut data transient_flags n s object (Some (rf_type f)) (rf_ptr f) (Some f);
  Ok (ps_c s, ps_m s).
(* 180-191: the loop from i with k rounds left. n bounds the parser *)
Fixpoint load_parameters (n k : nat) (i : Z) (sorted : list (option param)) (c : jctx) (w : pworld) : outcome (bool * pworld) :=
  match k with
  | O => Ok (true, w)
  | S k =>
      do p <- rd sorted i;
      match p with
      | None => UB
      | Some p =>
          do x <- AllocParameter w p;
          let w := snd x in
          do y <- LoadJSON_field n c (pw_mem w) (fst x) (as_field p);
          let w := mk_pw (pw_data w) (pw_block w) (pw_descs w) (pw_nb w) (snd y) (pw_log w) in
          match je_code (jc_err (fst y)) with
          | E_NONE => load_parameters n k (i + 1) sorted (fst y) w
          | _ => Ok (false, w)
          end
      end
  end.
Definition BuildParameterObjectCache_JSON (n : nat) (w : pworld) (parameters : list param) : outcome (bool * pworld) :=
  do w <- poc_Init w parameters;
  do sorted <- sort_fields parameters (repeat None (Z.to_nat MAX_NB_FIELDS));
  do t <- LexerNextToken (str2d F) data (JSONContext 0);
  if jtype_eqb (jt_type (fst t)) T_LBRACKET then load_parameters n (length parameters) 0 sorted (snd t) w else Ok (false, w).
End Cache.

(* a use of the cache: for each round a function's parameters, and those allocated, each followed by what the caller does to
   memory; then the cache is destroyed *)
Record round := mk_round { rd_function : list param; rd_allocated : list (param * (list Z -> list Z)) }.
Fixpoint alloc_all (fuel : nat) (E : list rtype) (ctor : nat -> option (Z -> list Z -> list Z)) (at_ : nat -> Z) (l : list (param * (list Z -> list Z))) (w : pworld) : outcome pworld :=
  match l with
  | [] => Ok w
  | (p, g) :: r =>
      do x <- AllocParameter fuel E ctor at_ w p;
      let w := snd x in
      alloc_all fuel E ctor at_ r (mk_pw (pw_data w) (pw_block w) (pw_descs w) (pw_nb w) (g (pw_mem w)) (pw_log w))
  end.
Fixpoint run_rounds (fuel : nat) (E : list rtype) (ctor dtor : nat -> option (Z -> list Z -> list Z)) (at_ : nat -> Z) (l : list round) (w : pworld) : outcome pworld :=
  match l with
  | [] => Ok w
  | r :: rest =>
      do w <- poc_Init fuel E dtor at_ w (rd_function r);
      do w <- alloc_all fuel E ctor at_ (rd_allocated r) w;
      run_rounds fuel E ctor dtor at_ rest w
  end.
