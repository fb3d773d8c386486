(** What the texts in the constant pool of a written file are (C95): those of the
    class, and the names of attributes. *)
From Coq Require Import String.
From Verif Require Import Base Wtf8Spec MutfModel PrimModel TypeModel TypeSpec CpModel SigModel SigSpec AnnModel AttrModel FrameModel InsnModel CodeModel
  ClassModel WriteSpec DrawnSpec.

(** JVMS 4.7: the attributes the crate knows and writes; and the class value of
    [void] (4.7.16.1), which is the return descriptor V. *)
Definition fixed_texts : list (list Z) := map str
  ["AnnotationDefault"; "BootstrapMethods"; "Code"; "ConstantValue"; "Deprecated"; "EnclosingMethod"; "Exceptions"; "InnerClasses";
   "LocalVariableTable"; "LocalVariableTypeTable"; "MethodParameters"; "Module"; "ModuleMainClass"; "ModulePackages"; "NestHost"; "NestMembers";
   "RuntimeInvisibleAnnotations"; "RuntimeInvisibleParameterAnnotations"; "RuntimeInvisibleTypeAnnotations";
   "RuntimeVisibleAnnotations"; "RuntimeVisibleParameterAnnotations"; "RuntimeVisibleTypeAnnotations"; "Signature"; "SourceDebugExtension";
   "SourceFile"; "Synthetic"; "V"]%string.

(** * The texts of descriptors and signatures

    A descriptor is written as it is (JVMS 4.3.2) or as [Display] shows it.
    Signatures are strings of Rust: [chars]. *)
Section Put.
Context (Txt : list Z -> Prop).
Definition desc_text (t : ty) : Prop := Txt (ty_text t) /\ forall s, display_type t = Ok s -> Txt s.
Definition field_text (s : rsig) : Prop := chars (rsig_text s) /\ Txt (flat_map utf8 (rsig_text s)).
(** A thrown variable is shown as a class (C34). *)
Definition method_text (m : method_sig) : Prop := chars (method_sig_text m) /\
  Txt (flat_map utf8 (method_sig_text {| ms_params := ms_params m; ms_args := ms_args m; ms_ret := ms_ret m; ms_throws := map throws_class (ms_throws m) |})).
Definition class_text (c : class_sig) : Prop := chars (class_sig_text c) /\ Txt (flat_map utf8 (class_sig_text c)).
(** All texts of a class, and of the bootstrap methods behind its dynamic constants. *)
Definition texts_class (c : class) : Prop := n_class Txt desc_text field_text method_text class_text c.
Definition texts_heap (heap : Z -> option bsm) : Prop := forall cell b, heap cell = Some b -> n_bsm Txt desc_text b.
End Put.

(** What is put into the pool when a file is read and written again. *)
Inductive put_again (md : mode) (l : list Z) : list Z -> Prop :=
| pa_fixed s : In s fixed_texts -> put_again md l s
| pa_text s : text_of l s -> put_again md l s
| pa_desc t : desc_of md l t -> put_again md l (ty_text t)
| pa_shown t s : desc_of md l t -> display_type t = Ok s -> put_again md l s
| pa_field g : sig_from (p_rsig md) l g -> put_again md l (flat_map utf8 (rsig_text g))
| pa_method g : sig_from (p_method md) l g ->
    put_again md l (flat_map utf8 (method_sig_text {| ms_params := ms_params g; ms_args := ms_args g; ms_ret := ms_ret g; ms_throws := map throws_class (ms_throws g) |}))
| pa_class g : sig_from (p_classsig md) l g -> put_again md l (flat_map utf8 (class_sig_text g)).
