(** Whole class files: src/clazz.rs.

    Cells ([Arc<OnceCell<BootstrapMethod>>]) are numbers; a heap gives the
    contents of the cells that are set.  Writing a class takes the heap its
    dynamic constants refer to, reading one returns the heap with the cells
    it filled. *)
From Coq Require Import String.
From Verif Require Import Base PrimModel TypeModel CpModel SigModel AnnModel AttrModel FrameModel InsnModel CodeModel.

(** clazz.rs 8-23 [Class]. *)
Record class : Type := {
  cl_version : version; cl_access : Z; cl_name : list Z; cl_super : option (list Z);
  cl_itfs : list (list Z); cl_fields : list field; cl_methods : list (method code);
  cl_attrs : list cattr }.

(** src/constants/mod.rs 4 *)
Definition JVM_MAGIC : Z := 3405691582.

(** clazz.rs 72-79: the table the writer starts with. *)
Definition initial_bsms (attrs : list cattr) : list bsm :=
  flat_map (fun a => match a with CBootstrap b => b | _ => [] end) attrs.

(** clazz.rs 91-102: the count is truncated to 16 bits, the elements follow. *)
Definition wr_list16 {A} (f : cwr A) : cwr (list A) := fun E xs w =>
  '(bs, w) <- wr_each f E xs w ;; Ok (be 2 (len xs) ++ bs, w).

(** clazz.rs 104-109: BootstrapMethods attributes are counted but skipped. *)
Definition wr_cattr_unless_bsm : cwr cattr := fun E a w =>
  match a with CBootstrap _ => Ok ([], w) | _ => wr_cattr E a w end.

(** clazz.rs 84-109 *)
Definition wr_members : cwr class :=
  wr_via (fun c => (cl_access c, (cl_name c, (cl_super c, (cl_itfs c, (cl_fields c, (cl_methods c, cl_attrs c)))))))
    (wr_pair wr_cflags (wr_pair (wr_idx insert_class) (wr_pair (wr_opt (wr_idx insert_class))
      (wr_pair (wr_list16 (wr_idx insert_class)) (wr_pair (wr_list16 wr_field)
        (wr_pair (wr_list16 (wr_method wr_code)) (wr_list16 wr_cattr_unless_bsm))))))).

(** [cp.bsm = b] *)
Definition with_bsm (w : wst) (b : list bsm) : wst :=
  {| w_entries := w_entries w; w_cache := w_cache w; w_len := w_len w; w_bsm := b |}.

(** clazz.rs 111-120, the loop.  Entries registered while the table is written
    land in an empty table and are written by the next round.  Nothing bounds
    the number of rounds, hence the fuel; C72 is about the loop ending. *)
Fixpoint wr_rounds (fuel : nat) (E : wenv) (i : Z) (w : wst) : res (list Z * Z * wst) :=
  match w_bsm w with
  | [] => Ok ([], i, w)
  | v =>
      match fuel with
      | O => Panic PFuel
      | S fuel =>
          i <- chk_u (we_md E) 16 (i + wrap_u 16 (len v)) ;;
          '(b, w) <- wr_each wr_bsm E v (with_bsm w []) ;;
          '(bs, i, w) <- wr_rounds fuel E i w ;;
          Ok (b ++ bs, i, w)
      end
  end.

(** clazz.rs 110-128 *)
Definition wr_table (fuel : nat) (E : wenv) (w : wst) : res (list Z * wst) :=
  match w_bsm w with
  | [] => Ok ([], w)
  | _ =>
      '(b, i, w) <- wr_rounds fuel E 0 w ;;
      '(n, w) <- wr_cow E (str "BootstrapMethods") w ;;
      k <- chk_u (we_md E) 32 (wrap_u 32 (len b) + 2) ;;
      Ok (n ++ be 4 k ++ be 2 i ++ b, w)
  end.

(** clazz.rs 84-128: what follows the constant pool, and the final pool. *)
Definition wr_body (fuel : nat) (E : wenv) (c : class) : res (list Z * wst) :=
  '(b1, w) <- wr_members E c (with_bsm wst_new (initial_bsms (cl_attrs c))) ;;
  '(b2, w) <- wr_table fuel E w ;;
  Ok (b1 ++ b2, w).

(** clazz.rs 71-132 *)
Definition wr_classfile (fuel : nat) (md : mode) (heap : Z -> option bsm) : wr class := fun c =>
  v <- wr_version (cl_version c) ;;
  '(b, w) <- wr_body fuel (wenv_class md heap) c ;;
  ps <- wr_pool w ;;
  Ok (be 4 JVM_MAGIC ++ v ++ ps ++ b).

(** clazz.rs 25-41 [ClassWrapper] *)
Definition rd_members (md : mode) (p : pool) : srd rst (version -> class) :=
  srd_map (fun '(a, (n, (s, (i, (f, (m, t)))))) v =>
    {| cl_version := v; cl_access := a; cl_name := n; cl_super := s; cl_itfs := i; cl_fields := f;
       cl_methods := m; cl_attrs := t |})
    (srd_pair (lift (rd_flags ClassFlags)) (srd_pair (lift (rd_class p)) (srd_pair (lift (rd_opt_strcp 7 p))
      (srd_pair (lift (rd_vec 2 (rd_class p))) (srd_pair (lift (rd_vec 2 (rd_field md p)))
        (srd_pair (srd_vec 2 (rd_method (rd_code md) md p)) (srd_vec 2 (rd_cattr md p)))))))).

(** clazz.rs 50-55: the first BootstrapMethods attribute. *)
Fixpoint first_table (attrs : list cattr) : option (list bsm) :=
  match attrs with
  | [] => None
  | CBootstrap b :: _ => Some b
  | _ :: attrs => first_table attrs
  end.

(** clazz.rs 44-69 *)
Definition rd_classfile (md : mode) : rd (class * list (Z * bsm)) := fun l =>
  '(m, l) <- rd_u32 l ;;
  if m =? JVM_MAGIC then
    '(v, l) <- rd_version l ;;
    '(p, l) <- rd_pool md l ;;
    '((c, s), l) <- rd_members md (pool_of p) {| r_refs := []; r_next := 0 |} l ;;
    let c := c v in
    h <- match first_table (cl_attrs c) with Some b => bootstrap_methods b s [] | None => Ok [] end ;;
    Ok ((c, h), l)
  else Err EInvalid.

(** What the cells of a class that was read contain. *)
Definition heap_of (h : list (Z * bsm)) : Z -> option bsm := fun c => assoc Z.eqb c h.
