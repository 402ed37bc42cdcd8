(** The tables of soft.go's own metamodel: the feature identifiers of ecore/ecorepackage.go, the
    package contents built by ecore/ecorepackage_impl.go, and the accessors of the generated classes
    ecore/e*_impl.go.  Every row is one statement of the generated code; the rows were written by a
    script from those files.  The constructors are explained in [EcoreSyntax]. *)
From Verif Require Import Base EcoreSyntax.
Local Open Scope string_scope.

(** ** Feature identifiers, ecore/ecorepackage.go *)
Definition EMODEL_ELEMENT__EANNOTATIONS : Z := 0. (* 32 *)
Definition EMODEL_ELEMENT_FEATURE_COUNT : Z := 1. (* 35 *)
Definition ENAMED_ELEMENT__EANNOTATIONS : Z := EMODEL_ELEMENT__EANNOTATIONS. (* 47 *)
Definition ENAMED_ELEMENT__NAME : Z := EMODEL_ELEMENT_FEATURE_COUNT + 0. (* 50 *)
Definition ENAMED_ELEMENT_FEATURE_COUNT : Z := EMODEL_ELEMENT_FEATURE_COUNT + 1. (* 53 *)
Definition ETYPED_ELEMENT__EANNOTATIONS : Z := ENAMED_ELEMENT__EANNOTATIONS. (* 65 *)
Definition ETYPED_ELEMENT__NAME : Z := ENAMED_ELEMENT__NAME. (* 68 *)
Definition ETYPED_ELEMENT__ORDERED : Z := ENAMED_ELEMENT_FEATURE_COUNT + 0. (* 71 *)
Definition ETYPED_ELEMENT__UNIQUE : Z := ENAMED_ELEMENT_FEATURE_COUNT + 1. (* 74 *)
Definition ETYPED_ELEMENT__LOWER_BOUND : Z := ENAMED_ELEMENT_FEATURE_COUNT + 2. (* 77 *)
Definition ETYPED_ELEMENT__UPPER_BOUND : Z := ENAMED_ELEMENT_FEATURE_COUNT + 3. (* 80 *)
Definition ETYPED_ELEMENT__MANY : Z := ENAMED_ELEMENT_FEATURE_COUNT + 4. (* 83 *)
Definition ETYPED_ELEMENT__REQUIRED : Z := ENAMED_ELEMENT_FEATURE_COUNT + 5. (* 86 *)
Definition ETYPED_ELEMENT__ETYPE : Z := ENAMED_ELEMENT_FEATURE_COUNT + 6. (* 89 *)
Definition ETYPED_ELEMENT_FEATURE_COUNT : Z := ENAMED_ELEMENT_FEATURE_COUNT + 7. (* 92 *)
Definition ESTRUCTURAL_FEATURE__EANNOTATIONS : Z := ETYPED_ELEMENT__EANNOTATIONS. (* 104 *)
Definition ESTRUCTURAL_FEATURE__NAME : Z := ETYPED_ELEMENT__NAME. (* 107 *)
Definition ESTRUCTURAL_FEATURE__ORDERED : Z := ETYPED_ELEMENT__ORDERED. (* 110 *)
Definition ESTRUCTURAL_FEATURE__UNIQUE : Z := ETYPED_ELEMENT__UNIQUE. (* 113 *)
Definition ESTRUCTURAL_FEATURE__LOWER_BOUND : Z := ETYPED_ELEMENT__LOWER_BOUND. (* 116 *)
Definition ESTRUCTURAL_FEATURE__UPPER_BOUND : Z := ETYPED_ELEMENT__UPPER_BOUND. (* 119 *)
Definition ESTRUCTURAL_FEATURE__MANY : Z := ETYPED_ELEMENT__MANY. (* 122 *)
Definition ESTRUCTURAL_FEATURE__REQUIRED : Z := ETYPED_ELEMENT__REQUIRED. (* 125 *)
Definition ESTRUCTURAL_FEATURE__ETYPE : Z := ETYPED_ELEMENT__ETYPE. (* 128 *)
Definition ESTRUCTURAL_FEATURE__CHANGEABLE : Z := ETYPED_ELEMENT_FEATURE_COUNT + 0. (* 131 *)
Definition ESTRUCTURAL_FEATURE__VOLATILE : Z := ETYPED_ELEMENT_FEATURE_COUNT + 1. (* 134 *)
Definition ESTRUCTURAL_FEATURE__TRANSIENT : Z := ETYPED_ELEMENT_FEATURE_COUNT + 2. (* 137 *)
Definition ESTRUCTURAL_FEATURE__DEFAULT_VALUE_LITERAL : Z := ETYPED_ELEMENT_FEATURE_COUNT + 3. (* 140 *)
Definition ESTRUCTURAL_FEATURE__DEFAULT_VALUE : Z := ETYPED_ELEMENT_FEATURE_COUNT + 4. (* 143 *)
Definition ESTRUCTURAL_FEATURE__UNSETTABLE : Z := ETYPED_ELEMENT_FEATURE_COUNT + 5. (* 146 *)
Definition ESTRUCTURAL_FEATURE__DERIVED : Z := ETYPED_ELEMENT_FEATURE_COUNT + 6. (* 149 *)
Definition ESTRUCTURAL_FEATURE__ECONTAINING_CLASS : Z := ETYPED_ELEMENT_FEATURE_COUNT + 7. (* 152 *)
Definition ESTRUCTURAL_FEATURE__FEATURE_ID : Z := ETYPED_ELEMENT_FEATURE_COUNT + 8. (* 155 *)
Definition ESTRUCTURAL_FEATURE_FEATURE_COUNT : Z := ETYPED_ELEMENT_FEATURE_COUNT + 9. (* 158 *)
Definition EATTRIBUTE__EANNOTATIONS : Z := ESTRUCTURAL_FEATURE__EANNOTATIONS. (* 172 *)
Definition EATTRIBUTE__NAME : Z := ESTRUCTURAL_FEATURE__NAME. (* 175 *)
Definition EATTRIBUTE__ORDERED : Z := ESTRUCTURAL_FEATURE__ORDERED. (* 178 *)
Definition EATTRIBUTE__UNIQUE : Z := ESTRUCTURAL_FEATURE__UNIQUE. (* 181 *)
Definition EATTRIBUTE__LOWER_BOUND : Z := ESTRUCTURAL_FEATURE__LOWER_BOUND. (* 184 *)
Definition EATTRIBUTE__UPPER_BOUND : Z := ESTRUCTURAL_FEATURE__UPPER_BOUND. (* 187 *)
Definition EATTRIBUTE__MANY : Z := ESTRUCTURAL_FEATURE__MANY. (* 190 *)
Definition EATTRIBUTE__REQUIRED : Z := ESTRUCTURAL_FEATURE__REQUIRED. (* 193 *)
Definition EATTRIBUTE__ETYPE : Z := ESTRUCTURAL_FEATURE__ETYPE. (* 196 *)
Definition EATTRIBUTE__CHANGEABLE : Z := ESTRUCTURAL_FEATURE__CHANGEABLE. (* 199 *)
Definition EATTRIBUTE__VOLATILE : Z := ESTRUCTURAL_FEATURE__VOLATILE. (* 202 *)
Definition EATTRIBUTE__TRANSIENT : Z := ESTRUCTURAL_FEATURE__TRANSIENT. (* 205 *)
Definition EATTRIBUTE__DEFAULT_VALUE_LITERAL : Z := ESTRUCTURAL_FEATURE__DEFAULT_VALUE_LITERAL. (* 208 *)
Definition EATTRIBUTE__DEFAULT_VALUE : Z := ESTRUCTURAL_FEATURE__DEFAULT_VALUE. (* 211 *)
Definition EATTRIBUTE__UNSETTABLE : Z := ESTRUCTURAL_FEATURE__UNSETTABLE. (* 214 *)
Definition EATTRIBUTE__DERIVED : Z := ESTRUCTURAL_FEATURE__DERIVED. (* 217 *)
Definition EATTRIBUTE__ECONTAINING_CLASS : Z := ESTRUCTURAL_FEATURE__ECONTAINING_CLASS. (* 220 *)
Definition EATTRIBUTE__FEATURE_ID : Z := ESTRUCTURAL_FEATURE__FEATURE_ID. (* 223 *)
Definition EATTRIBUTE__ID : Z := ESTRUCTURAL_FEATURE_FEATURE_COUNT + 0. (* 226 *)
Definition EATTRIBUTE__EATTRIBUTE_TYPE : Z := ESTRUCTURAL_FEATURE_FEATURE_COUNT + 1. (* 229 *)
Definition EATTRIBUTE_FEATURE_COUNT : Z := ESTRUCTURAL_FEATURE_FEATURE_COUNT + 2. (* 232 *)
Definition EANNOTATION__EANNOTATIONS : Z := EMODEL_ELEMENT__EANNOTATIONS. (* 246 *)
Definition EANNOTATION__SOURCE : Z := EMODEL_ELEMENT_FEATURE_COUNT + 0. (* 249 *)
Definition EANNOTATION__DETAILS : Z := EMODEL_ELEMENT_FEATURE_COUNT + 1. (* 252 *)
Definition EANNOTATION__EMODEL_ELEMENT : Z := EMODEL_ELEMENT_FEATURE_COUNT + 2. (* 255 *)
Definition EANNOTATION__CONTENTS : Z := EMODEL_ELEMENT_FEATURE_COUNT + 3. (* 258 *)
Definition EANNOTATION__REFERENCES : Z := EMODEL_ELEMENT_FEATURE_COUNT + 4. (* 261 *)
Definition EANNOTATION_FEATURE_COUNT : Z := EMODEL_ELEMENT_FEATURE_COUNT + 5. (* 264 *)
Definition ECLASSIFIER__EANNOTATIONS : Z := ENAMED_ELEMENT__EANNOTATIONS. (* 276 *)
Definition ECLASSIFIER__NAME : Z := ENAMED_ELEMENT__NAME. (* 279 *)
Definition ECLASSIFIER__INSTANCE_CLASS_NAME : Z := ENAMED_ELEMENT_FEATURE_COUNT + 0. (* 282 *)
Definition ECLASSIFIER__INSTANCE_CLASS : Z := ENAMED_ELEMENT_FEATURE_COUNT + 1. (* 285 *)
Definition ECLASSIFIER__INSTANCE_TYPE_NAME : Z := ENAMED_ELEMENT_FEATURE_COUNT + 2. (* 288 *)
Definition ECLASSIFIER__DEFAULT_VALUE : Z := ENAMED_ELEMENT_FEATURE_COUNT + 3. (* 291 *)
Definition ECLASSIFIER__EPACKAGE : Z := ENAMED_ELEMENT_FEATURE_COUNT + 4. (* 294 *)
Definition ECLASSIFIER__CLASSIFIER_ID : Z := ENAMED_ELEMENT_FEATURE_COUNT + 5. (* 297 *)
Definition ECLASSIFIER_FEATURE_COUNT : Z := ENAMED_ELEMENT_FEATURE_COUNT + 6. (* 300 *)
Definition ECLASS__EANNOTATIONS : Z := ECLASSIFIER__EANNOTATIONS. (* 314 *)
Definition ECLASS__NAME : Z := ECLASSIFIER__NAME. (* 317 *)
Definition ECLASS__INSTANCE_CLASS_NAME : Z := ECLASSIFIER__INSTANCE_CLASS_NAME. (* 320 *)
Definition ECLASS__INSTANCE_CLASS : Z := ECLASSIFIER__INSTANCE_CLASS. (* 323 *)
Definition ECLASS__INSTANCE_TYPE_NAME : Z := ECLASSIFIER__INSTANCE_TYPE_NAME. (* 326 *)
Definition ECLASS__DEFAULT_VALUE : Z := ECLASSIFIER__DEFAULT_VALUE. (* 329 *)
Definition ECLASS__EPACKAGE : Z := ECLASSIFIER__EPACKAGE. (* 332 *)
Definition ECLASS__CLASSIFIER_ID : Z := ECLASSIFIER__CLASSIFIER_ID. (* 335 *)
Definition ECLASS__ABSTRACT : Z := ECLASSIFIER_FEATURE_COUNT + 0. (* 338 *)
Definition ECLASS__INTERFACE : Z := ECLASSIFIER_FEATURE_COUNT + 1. (* 341 *)
Definition ECLASS__ESTRUCTURAL_FEATURES : Z := ECLASSIFIER_FEATURE_COUNT + 2. (* 344 *)
Definition ECLASS__EATTRIBUTES : Z := ECLASSIFIER_FEATURE_COUNT + 3. (* 347 *)
Definition ECLASS__EREFERENCES : Z := ECLASSIFIER_FEATURE_COUNT + 4. (* 350 *)
Definition ECLASS__ESUPER_TYPES : Z := ECLASSIFIER_FEATURE_COUNT + 5. (* 353 *)
Definition ECLASS__EOPERATIONS : Z := ECLASSIFIER_FEATURE_COUNT + 6. (* 356 *)
Definition ECLASS__ECONTAINMENT_FEATURES : Z := ECLASSIFIER_FEATURE_COUNT + 7. (* 359 *)
Definition ECLASS__ECROSS_REFERENCE_FEATURES : Z := ECLASSIFIER_FEATURE_COUNT + 8. (* 362 *)
Definition ECLASS__EALL_ATTRIBUTES : Z := ECLASSIFIER_FEATURE_COUNT + 9. (* 365 *)
Definition ECLASS__EALL_REFERENCES : Z := ECLASSIFIER_FEATURE_COUNT + 10. (* 368 *)
Definition ECLASS__EALL_CONTAINMENTS : Z := ECLASSIFIER_FEATURE_COUNT + 11. (* 371 *)
Definition ECLASS__EALL_CROSS_REFERENCES : Z := ECLASSIFIER_FEATURE_COUNT + 12. (* 374 *)
Definition ECLASS__EALL_OPERATIONS : Z := ECLASSIFIER_FEATURE_COUNT + 13. (* 377 *)
Definition ECLASS__EALL_STRUCTURAL_FEATURES : Z := ECLASSIFIER_FEATURE_COUNT + 14. (* 380 *)
Definition ECLASS__EALL_SUPER_TYPES : Z := ECLASSIFIER_FEATURE_COUNT + 15. (* 383 *)
Definition ECLASS__EID_ATTRIBUTE : Z := ECLASSIFIER_FEATURE_COUNT + 16. (* 386 *)
Definition ECLASS_FEATURE_COUNT : Z := ECLASSIFIER_FEATURE_COUNT + 17. (* 389 *)
Definition EDATA_TYPE__EANNOTATIONS : Z := ECLASSIFIER__EANNOTATIONS. (* 423 *)
Definition EDATA_TYPE__NAME : Z := ECLASSIFIER__NAME. (* 426 *)
Definition EDATA_TYPE__INSTANCE_CLASS_NAME : Z := ECLASSIFIER__INSTANCE_CLASS_NAME. (* 429 *)
Definition EDATA_TYPE__INSTANCE_CLASS : Z := ECLASSIFIER__INSTANCE_CLASS. (* 432 *)
Definition EDATA_TYPE__INSTANCE_TYPE_NAME : Z := ECLASSIFIER__INSTANCE_TYPE_NAME. (* 435 *)
Definition EDATA_TYPE__DEFAULT_VALUE : Z := ECLASSIFIER__DEFAULT_VALUE. (* 438 *)
Definition EDATA_TYPE__EPACKAGE : Z := ECLASSIFIER__EPACKAGE. (* 441 *)
Definition EDATA_TYPE__CLASSIFIER_ID : Z := ECLASSIFIER__CLASSIFIER_ID. (* 444 *)
Definition EDATA_TYPE__SERIALIZABLE : Z := ECLASSIFIER_FEATURE_COUNT + 0. (* 447 *)
Definition EDATA_TYPE_FEATURE_COUNT : Z := ECLASSIFIER_FEATURE_COUNT + 1. (* 450 *)
Definition EENUM__EANNOTATIONS : Z := EDATA_TYPE__EANNOTATIONS. (* 464 *)
Definition EENUM__NAME : Z := EDATA_TYPE__NAME. (* 467 *)
Definition EENUM__INSTANCE_CLASS_NAME : Z := EDATA_TYPE__INSTANCE_CLASS_NAME. (* 470 *)
Definition EENUM__INSTANCE_CLASS : Z := EDATA_TYPE__INSTANCE_CLASS. (* 473 *)
Definition EENUM__INSTANCE_TYPE_NAME : Z := EDATA_TYPE__INSTANCE_TYPE_NAME. (* 476 *)
Definition EENUM__DEFAULT_VALUE : Z := EDATA_TYPE__DEFAULT_VALUE. (* 479 *)
Definition EENUM__EPACKAGE : Z := EDATA_TYPE__EPACKAGE. (* 482 *)
Definition EENUM__CLASSIFIER_ID : Z := EDATA_TYPE__CLASSIFIER_ID. (* 485 *)
Definition EENUM__SERIALIZABLE : Z := EDATA_TYPE__SERIALIZABLE. (* 488 *)
Definition EENUM__ELITERALS : Z := EDATA_TYPE_FEATURE_COUNT + 0. (* 491 *)
Definition EENUM_FEATURE_COUNT : Z := EDATA_TYPE_FEATURE_COUNT + 1. (* 494 *)
Definition EENUM_LITERAL__EANNOTATIONS : Z := ENAMED_ELEMENT__EANNOTATIONS. (* 514 *)
Definition EENUM_LITERAL__NAME : Z := ENAMED_ELEMENT__NAME. (* 517 *)
Definition EENUM_LITERAL__VALUE : Z := ENAMED_ELEMENT_FEATURE_COUNT + 0. (* 520 *)
Definition EENUM_LITERAL__INSTANCE : Z := ENAMED_ELEMENT_FEATURE_COUNT + 1. (* 523 *)
Definition EENUM_LITERAL__LITERAL : Z := ENAMED_ELEMENT_FEATURE_COUNT + 2. (* 526 *)
Definition EENUM_LITERAL__EENUM : Z := ENAMED_ELEMENT_FEATURE_COUNT + 3. (* 529 *)
Definition EENUM_LITERAL_FEATURE_COUNT : Z := ENAMED_ELEMENT_FEATURE_COUNT + 4. (* 532 *)
Definition EFACTORY__EANNOTATIONS : Z := EMODEL_ELEMENT__EANNOTATIONS. (* 544 *)
Definition EFACTORY__EPACKAGE : Z := EMODEL_ELEMENT_FEATURE_COUNT + 0. (* 547 *)
Definition EFACTORY_FEATURE_COUNT : Z := EMODEL_ELEMENT_FEATURE_COUNT + 1. (* 550 *)
Definition EOBJECT_FEATURE_COUNT : Z := 0. (* 568 *)
Definition EOPERATION__EANNOTATIONS : Z := ETYPED_ELEMENT__EANNOTATIONS. (* 608 *)
Definition EOPERATION__NAME : Z := ETYPED_ELEMENT__NAME. (* 611 *)
Definition EOPERATION__ORDERED : Z := ETYPED_ELEMENT__ORDERED. (* 614 *)
Definition EOPERATION__UNIQUE : Z := ETYPED_ELEMENT__UNIQUE. (* 617 *)
Definition EOPERATION__LOWER_BOUND : Z := ETYPED_ELEMENT__LOWER_BOUND. (* 620 *)
Definition EOPERATION__UPPER_BOUND : Z := ETYPED_ELEMENT__UPPER_BOUND. (* 623 *)
Definition EOPERATION__MANY : Z := ETYPED_ELEMENT__MANY. (* 626 *)
Definition EOPERATION__REQUIRED : Z := ETYPED_ELEMENT__REQUIRED. (* 629 *)
Definition EOPERATION__ETYPE : Z := ETYPED_ELEMENT__ETYPE. (* 632 *)
Definition EOPERATION__ECONTAINING_CLASS : Z := ETYPED_ELEMENT_FEATURE_COUNT + 0. (* 635 *)
Definition EOPERATION__EPARAMETERS : Z := ETYPED_ELEMENT_FEATURE_COUNT + 1. (* 638 *)
Definition EOPERATION__EEXCEPTIONS : Z := ETYPED_ELEMENT_FEATURE_COUNT + 2. (* 641 *)
Definition EOPERATION__OPERATION_ID : Z := ETYPED_ELEMENT_FEATURE_COUNT + 3. (* 644 *)
Definition EOPERATION_FEATURE_COUNT : Z := ETYPED_ELEMENT_FEATURE_COUNT + 4. (* 647 *)
Definition EPACKAGE__EANNOTATIONS : Z := ENAMED_ELEMENT__EANNOTATIONS. (* 661 *)
Definition EPACKAGE__NAME : Z := ENAMED_ELEMENT__NAME. (* 664 *)
Definition EPACKAGE__NS_URI : Z := ENAMED_ELEMENT_FEATURE_COUNT + 0. (* 667 *)
Definition EPACKAGE__NS_PREFIX : Z := ENAMED_ELEMENT_FEATURE_COUNT + 1. (* 670 *)
Definition EPACKAGE__EFACTORY_INSTANCE : Z := ENAMED_ELEMENT_FEATURE_COUNT + 2. (* 673 *)
Definition EPACKAGE__ECLASSIFIERS : Z := ENAMED_ELEMENT_FEATURE_COUNT + 3. (* 676 *)
Definition EPACKAGE__ESUB_PACKAGES : Z := ENAMED_ELEMENT_FEATURE_COUNT + 4. (* 679 *)
Definition EPACKAGE__ESUPER_PACKAGE : Z := ENAMED_ELEMENT_FEATURE_COUNT + 5. (* 682 *)
Definition EPACKAGE_FEATURE_COUNT : Z := ENAMED_ELEMENT_FEATURE_COUNT + 6. (* 685 *)
Definition EPARAMETER__EANNOTATIONS : Z := ETYPED_ELEMENT__EANNOTATIONS. (* 699 *)
Definition EPARAMETER__NAME : Z := ETYPED_ELEMENT__NAME. (* 702 *)
Definition EPARAMETER__ORDERED : Z := ETYPED_ELEMENT__ORDERED. (* 705 *)
Definition EPARAMETER__UNIQUE : Z := ETYPED_ELEMENT__UNIQUE. (* 708 *)
Definition EPARAMETER__LOWER_BOUND : Z := ETYPED_ELEMENT__LOWER_BOUND. (* 711 *)
Definition EPARAMETER__UPPER_BOUND : Z := ETYPED_ELEMENT__UPPER_BOUND. (* 714 *)
Definition EPARAMETER__MANY : Z := ETYPED_ELEMENT__MANY. (* 717 *)
Definition EPARAMETER__REQUIRED : Z := ETYPED_ELEMENT__REQUIRED. (* 720 *)
Definition EPARAMETER__ETYPE : Z := ETYPED_ELEMENT__ETYPE. (* 723 *)
Definition EPARAMETER__EOPERATION : Z := ETYPED_ELEMENT_FEATURE_COUNT + 0. (* 726 *)
Definition EPARAMETER_FEATURE_COUNT : Z := ETYPED_ELEMENT_FEATURE_COUNT + 1. (* 729 *)
Definition EREFERENCE__EANNOTATIONS : Z := ESTRUCTURAL_FEATURE__EANNOTATIONS. (* 741 *)
Definition EREFERENCE__NAME : Z := ESTRUCTURAL_FEATURE__NAME. (* 744 *)
Definition EREFERENCE__ORDERED : Z := ESTRUCTURAL_FEATURE__ORDERED. (* 747 *)
Definition EREFERENCE__UNIQUE : Z := ESTRUCTURAL_FEATURE__UNIQUE. (* 750 *)
Definition EREFERENCE__LOWER_BOUND : Z := ESTRUCTURAL_FEATURE__LOWER_BOUND. (* 753 *)
Definition EREFERENCE__UPPER_BOUND : Z := ESTRUCTURAL_FEATURE__UPPER_BOUND. (* 756 *)
Definition EREFERENCE__MANY : Z := ESTRUCTURAL_FEATURE__MANY. (* 759 *)
Definition EREFERENCE__REQUIRED : Z := ESTRUCTURAL_FEATURE__REQUIRED. (* 762 *)
Definition EREFERENCE__ETYPE : Z := ESTRUCTURAL_FEATURE__ETYPE. (* 765 *)
Definition EREFERENCE__CHANGEABLE : Z := ESTRUCTURAL_FEATURE__CHANGEABLE. (* 768 *)
Definition EREFERENCE__VOLATILE : Z := ESTRUCTURAL_FEATURE__VOLATILE. (* 771 *)
Definition EREFERENCE__TRANSIENT : Z := ESTRUCTURAL_FEATURE__TRANSIENT. (* 774 *)
Definition EREFERENCE__DEFAULT_VALUE_LITERAL : Z := ESTRUCTURAL_FEATURE__DEFAULT_VALUE_LITERAL. (* 777 *)
Definition EREFERENCE__DEFAULT_VALUE : Z := ESTRUCTURAL_FEATURE__DEFAULT_VALUE. (* 780 *)
Definition EREFERENCE__UNSETTABLE : Z := ESTRUCTURAL_FEATURE__UNSETTABLE. (* 783 *)
Definition EREFERENCE__DERIVED : Z := ESTRUCTURAL_FEATURE__DERIVED. (* 786 *)
Definition EREFERENCE__ECONTAINING_CLASS : Z := ESTRUCTURAL_FEATURE__ECONTAINING_CLASS. (* 789 *)
Definition EREFERENCE__FEATURE_ID : Z := ESTRUCTURAL_FEATURE__FEATURE_ID. (* 792 *)
Definition EREFERENCE__CONTAINMENT : Z := ESTRUCTURAL_FEATURE_FEATURE_COUNT + 0. (* 795 *)
Definition EREFERENCE__CONTAINER : Z := ESTRUCTURAL_FEATURE_FEATURE_COUNT + 1. (* 798 *)
Definition EREFERENCE__RESOLVE_PROXIES : Z := ESTRUCTURAL_FEATURE_FEATURE_COUNT + 2. (* 801 *)
Definition EREFERENCE__EOPPOSITE : Z := ESTRUCTURAL_FEATURE_FEATURE_COUNT + 3. (* 804 *)
Definition EREFERENCE__EREFERENCE_TYPE : Z := ESTRUCTURAL_FEATURE_FEATURE_COUNT + 4. (* 807 *)
Definition EREFERENCE__EKEYS : Z := ESTRUCTURAL_FEATURE_FEATURE_COUNT + 5. (* 810 *)
Definition EREFERENCE_FEATURE_COUNT : Z := ESTRUCTURAL_FEATURE_FEATURE_COUNT + 6. (* 813 *)
Definition ESTRING_TO_STRING_MAP_ENTRY__KEY : Z := 0. (* 827 *)
Definition ESTRING_TO_STRING_MAP_ENTRY__VALUE : Z := 1. (* 830 *)
Definition ESTRING_TO_STRING_MAP_ENTRY_FEATURE_COUNT : Z := 2. (* 833 *)
Definition EGENERIC_TYPE__EUPPER_BOUND : Z := 0. (* 842 *)
Definition EGENERIC_TYPE__ETYPE_ARGUMENTS : Z := 1. (* 845 *)
Definition EGENERIC_TYPE__ERAW_TYPE : Z := 2. (* 848 *)
Definition EGENERIC_TYPE__ELOWER_BOUND : Z := 3. (* 851 *)
Definition EGENERIC_TYPE__ETYPE_PARAMETER : Z := 4. (* 854 *)
Definition EGENERIC_TYPE__ECLASSIFIER : Z := 5. (* 857 *)
Definition EGENERIC_TYPE_FEATURE_COUNT : Z := 6. (* 860 *)
Definition ETYPE_PARAMETER__EANNOTATIONS : Z := ENAMED_ELEMENT__EANNOTATIONS. (* 872 *)
Definition ETYPE_PARAMETER__NAME : Z := ENAMED_ELEMENT__NAME. (* 875 *)
Definition ETYPE_PARAMETER__EBOUNDS : Z := ENAMED_ELEMENT_FEATURE_COUNT + 0. (* 878 *)
Definition ETYPE_PARAMETER_FEATURE_COUNT : Z := ENAMED_ELEMENT_FEATURE_COUNT + 1. (* 881 *)

(** ** Classes, in the order in which createPackageContents creates them,
    ecorepackage_impl.go:946-1139 *)
Definition cEAnnotation : nat := 0. (* 948 *)
Definition cEAttribute : nat := 1. (* 955 *)
Definition cEClass : nat := 2. (* 959 *)
Definition cEClassifier : nat := 3. (* 988 *)
Definition cEDataType : nat := 4. (* 997 *)
Definition cEEnum : nat := 5. (* 1000 *)
Definition cEEnumLiteral : nat := 6. (* 1006 *)
Definition cEFactory : nat := 7. (* 1012 *)
Definition cEGenericType : nat := 8. (* 1018 *)
Definition cEModelElement : nat := 9. (* 1027 *)
Definition cENamedElement : nat := 10. (* 1031 *)
Definition cEObject : nat := 11. (* 1034 *)
Definition cEOperation : nat := 12. (* 1051 *)
Definition cEPackage : nat := 13. (* 1058 *)
Definition cEParameter : nat := 14. (* 1067 *)
Definition cEReference : nat := 15. (* 1070 *)
Definition cEStringToStringMapEntry : nat := 16. (* 1078 *)
Definition cEStructuralFeature : nat := 17. (* 1082 *)
Definition cETypeParameter : nat := 18. (* 1094 *)
Definition cETypedElement : nat := 19. (* 1097 *)
Definition class_names : list (string * nat) :=
  [("EAnnotation", cEAnnotation); ("EAttribute", cEAttribute); ("EClass", cEClass); ("EClassifier", cEClassifier); ("EDataType", cEDataType); ("EEnum", cEEnum); ("EEnumLiteral", cEEnumLiteral); ("EFactory", cEFactory); ("EGenericType", cEGenericType); ("EModelElement", cEModelElement); ("ENamedElement", cENamedElement); ("EObject", cEObject); ("EOperation", cEOperation); ("EPackage", cEPackage); ("EParameter", cEParameter); ("EReference", cEReference); ("EStringToStringMapEntry", cEStringToStringMapEntry); ("EStructuralFeature", cEStructuralFeature); ("ETypeParameter", cETypeParameter); ("ETypedElement", cETypedElement)].
Definition class_count : nat := 20.

(** the feature constants of each class with the name of the feature in their comment,
    ecorepackage.go:28-886 *)
Definition constants : list (nat * string * Z) :=
  [
   (cEModelElement, "eAnnotations", EMODEL_ELEMENT__EANNOTATIONS);
   (cENamedElement, "eAnnotations", ENAMED_ELEMENT__EANNOTATIONS);
   (cENamedElement, "name", ENAMED_ELEMENT__NAME);
   (cETypedElement, "eAnnotations", ETYPED_ELEMENT__EANNOTATIONS);
   (cETypedElement, "name", ETYPED_ELEMENT__NAME);
   (cETypedElement, "ordered", ETYPED_ELEMENT__ORDERED);
   (cETypedElement, "unique", ETYPED_ELEMENT__UNIQUE);
   (cETypedElement, "lowerBound", ETYPED_ELEMENT__LOWER_BOUND);
   (cETypedElement, "upperBound", ETYPED_ELEMENT__UPPER_BOUND);
   (cETypedElement, "many", ETYPED_ELEMENT__MANY);
   (cETypedElement, "required", ETYPED_ELEMENT__REQUIRED);
   (cETypedElement, "eType", ETYPED_ELEMENT__ETYPE);
   (cEStructuralFeature, "eAnnotations", ESTRUCTURAL_FEATURE__EANNOTATIONS);
   (cEStructuralFeature, "name", ESTRUCTURAL_FEATURE__NAME);
   (cEStructuralFeature, "ordered", ESTRUCTURAL_FEATURE__ORDERED);
   (cEStructuralFeature, "unique", ESTRUCTURAL_FEATURE__UNIQUE);
   (cEStructuralFeature, "lowerBound", ESTRUCTURAL_FEATURE__LOWER_BOUND);
   (cEStructuralFeature, "upperBound", ESTRUCTURAL_FEATURE__UPPER_BOUND);
   (cEStructuralFeature, "many", ESTRUCTURAL_FEATURE__MANY);
   (cEStructuralFeature, "required", ESTRUCTURAL_FEATURE__REQUIRED);
   (cEStructuralFeature, "eType", ESTRUCTURAL_FEATURE__ETYPE);
   (cEStructuralFeature, "changeable", ESTRUCTURAL_FEATURE__CHANGEABLE);
   (cEStructuralFeature, "volatile", ESTRUCTURAL_FEATURE__VOLATILE);
   (cEStructuralFeature, "transient", ESTRUCTURAL_FEATURE__TRANSIENT);
   (cEStructuralFeature, "defaultValueLiteral", ESTRUCTURAL_FEATURE__DEFAULT_VALUE_LITERAL);
   (cEStructuralFeature, "defaultValue", ESTRUCTURAL_FEATURE__DEFAULT_VALUE);
   (cEStructuralFeature, "unsettable", ESTRUCTURAL_FEATURE__UNSETTABLE);
   (cEStructuralFeature, "derived", ESTRUCTURAL_FEATURE__DERIVED);
   (cEStructuralFeature, "eContainingClass", ESTRUCTURAL_FEATURE__ECONTAINING_CLASS);
   (cEStructuralFeature, "featureID", ESTRUCTURAL_FEATURE__FEATURE_ID);
   (cEAttribute, "eAnnotations", EATTRIBUTE__EANNOTATIONS);
   (cEAttribute, "name", EATTRIBUTE__NAME);
   (cEAttribute, "ordered", EATTRIBUTE__ORDERED);
   (cEAttribute, "unique", EATTRIBUTE__UNIQUE);
   (cEAttribute, "lowerBound", EATTRIBUTE__LOWER_BOUND);
   (cEAttribute, "upperBound", EATTRIBUTE__UPPER_BOUND);
   (cEAttribute, "many", EATTRIBUTE__MANY);
   (cEAttribute, "required", EATTRIBUTE__REQUIRED);
   (cEAttribute, "eType", EATTRIBUTE__ETYPE);
   (cEAttribute, "changeable", EATTRIBUTE__CHANGEABLE);
   (cEAttribute, "volatile", EATTRIBUTE__VOLATILE);
   (cEAttribute, "transient", EATTRIBUTE__TRANSIENT);
   (cEAttribute, "defaultValueLiteral", EATTRIBUTE__DEFAULT_VALUE_LITERAL);
   (cEAttribute, "defaultValue", EATTRIBUTE__DEFAULT_VALUE);
   (cEAttribute, "unsettable", EATTRIBUTE__UNSETTABLE);
   (cEAttribute, "derived", EATTRIBUTE__DERIVED);
   (cEAttribute, "eContainingClass", EATTRIBUTE__ECONTAINING_CLASS);
   (cEAttribute, "featureID", EATTRIBUTE__FEATURE_ID);
   (cEAttribute, "iD", EATTRIBUTE__ID);
   (cEAttribute, "eAttributeType", EATTRIBUTE__EATTRIBUTE_TYPE);
   (cEAnnotation, "eAnnotations", EANNOTATION__EANNOTATIONS);
   (cEAnnotation, "source", EANNOTATION__SOURCE);
   (cEAnnotation, "details", EANNOTATION__DETAILS);
   (cEAnnotation, "eModelElement", EANNOTATION__EMODEL_ELEMENT);
   (cEAnnotation, "contents", EANNOTATION__CONTENTS);
   (cEAnnotation, "references", EANNOTATION__REFERENCES);
   (cEClassifier, "eAnnotations", ECLASSIFIER__EANNOTATIONS);
   (cEClassifier, "name", ECLASSIFIER__NAME);
   (cEClassifier, "instanceClassName", ECLASSIFIER__INSTANCE_CLASS_NAME);
   (cEClassifier, "instanceClass", ECLASSIFIER__INSTANCE_CLASS);
   (cEClassifier, "instanceTypeName", ECLASSIFIER__INSTANCE_TYPE_NAME);
   (cEClassifier, "defaultValue", ECLASSIFIER__DEFAULT_VALUE);
   (cEClassifier, "ePackage", ECLASSIFIER__EPACKAGE);
   (cEClassifier, "classifierID", ECLASSIFIER__CLASSIFIER_ID);
   (cEClass, "eAnnotations", ECLASS__EANNOTATIONS);
   (cEClass, "name", ECLASS__NAME);
   (cEClass, "instanceClassName", ECLASS__INSTANCE_CLASS_NAME);
   (cEClass, "instanceClass", ECLASS__INSTANCE_CLASS);
   (cEClass, "instanceTypeName", ECLASS__INSTANCE_TYPE_NAME);
   (cEClass, "defaultValue", ECLASS__DEFAULT_VALUE);
   (cEClass, "ePackage", ECLASS__EPACKAGE);
   (cEClass, "classifierID", ECLASS__CLASSIFIER_ID);
   (cEClass, "abstract", ECLASS__ABSTRACT);
   (cEClass, "interface", ECLASS__INTERFACE);
   (cEClass, "eStructuralFeatures", ECLASS__ESTRUCTURAL_FEATURES);
   (cEClass, "eAttributes", ECLASS__EATTRIBUTES);
   (cEClass, "eReferences", ECLASS__EREFERENCES);
   (cEClass, "eSuperTypes", ECLASS__ESUPER_TYPES);
   (cEClass, "eOperations", ECLASS__EOPERATIONS);
   (cEClass, "eContainmentFeatures", ECLASS__ECONTAINMENT_FEATURES);
   (cEClass, "eCrossReferenceFeatures", ECLASS__ECROSS_REFERENCE_FEATURES);
   (cEClass, "eAllAttributes", ECLASS__EALL_ATTRIBUTES);
   (cEClass, "eAllReferences", ECLASS__EALL_REFERENCES);
   (cEClass, "eAllContainments", ECLASS__EALL_CONTAINMENTS);
   (cEClass, "eAllCrossReferences", ECLASS__EALL_CROSS_REFERENCES);
   (cEClass, "eAllOperations", ECLASS__EALL_OPERATIONS);
   (cEClass, "eAllStructuralFeatures", ECLASS__EALL_STRUCTURAL_FEATURES);
   (cEClass, "eAllSuperTypes", ECLASS__EALL_SUPER_TYPES);
   (cEClass, "eIDAttribute", ECLASS__EID_ATTRIBUTE);
   (cEDataType, "eAnnotations", EDATA_TYPE__EANNOTATIONS);
   (cEDataType, "name", EDATA_TYPE__NAME);
   (cEDataType, "instanceClassName", EDATA_TYPE__INSTANCE_CLASS_NAME);
   (cEDataType, "instanceClass", EDATA_TYPE__INSTANCE_CLASS);
   (cEDataType, "instanceTypeName", EDATA_TYPE__INSTANCE_TYPE_NAME);
   (cEDataType, "defaultValue", EDATA_TYPE__DEFAULT_VALUE);
   (cEDataType, "ePackage", EDATA_TYPE__EPACKAGE);
   (cEDataType, "classifierID", EDATA_TYPE__CLASSIFIER_ID);
   (cEDataType, "serializable", EDATA_TYPE__SERIALIZABLE);
   (cEEnum, "eAnnotations", EENUM__EANNOTATIONS);
   (cEEnum, "name", EENUM__NAME);
   (cEEnum, "instanceClassName", EENUM__INSTANCE_CLASS_NAME);
   (cEEnum, "instanceClass", EENUM__INSTANCE_CLASS);
   (cEEnum, "instanceTypeName", EENUM__INSTANCE_TYPE_NAME);
   (cEEnum, "defaultValue", EENUM__DEFAULT_VALUE);
   (cEEnum, "ePackage", EENUM__EPACKAGE);
   (cEEnum, "classifierID", EENUM__CLASSIFIER_ID);
   (cEEnum, "serializable", EENUM__SERIALIZABLE);
   (cEEnum, "eLiterals", EENUM__ELITERALS);
   (cEEnumLiteral, "eAnnotations", EENUM_LITERAL__EANNOTATIONS);
   (cEEnumLiteral, "name", EENUM_LITERAL__NAME);
   (cEEnumLiteral, "value", EENUM_LITERAL__VALUE);
   (cEEnumLiteral, "instance", EENUM_LITERAL__INSTANCE);
   (cEEnumLiteral, "literal", EENUM_LITERAL__LITERAL);
   (cEEnumLiteral, "eEnum", EENUM_LITERAL__EENUM);
   (cEFactory, "eAnnotations", EFACTORY__EANNOTATIONS);
   (cEFactory, "ePackage", EFACTORY__EPACKAGE);
   (cEOperation, "eAnnotations", EOPERATION__EANNOTATIONS);
   (cEOperation, "name", EOPERATION__NAME);
   (cEOperation, "ordered", EOPERATION__ORDERED);
   (cEOperation, "unique", EOPERATION__UNIQUE);
   (cEOperation, "lowerBound", EOPERATION__LOWER_BOUND);
   (cEOperation, "upperBound", EOPERATION__UPPER_BOUND);
   (cEOperation, "many", EOPERATION__MANY);
   (cEOperation, "required", EOPERATION__REQUIRED);
   (cEOperation, "eType", EOPERATION__ETYPE);
   (cEOperation, "eContainingClass", EOPERATION__ECONTAINING_CLASS);
   (cEOperation, "eParameters", EOPERATION__EPARAMETERS);
   (cEOperation, "eExceptions", EOPERATION__EEXCEPTIONS);
   (cEOperation, "operationID", EOPERATION__OPERATION_ID);
   (cEPackage, "eAnnotations", EPACKAGE__EANNOTATIONS);
   (cEPackage, "name", EPACKAGE__NAME);
   (cEPackage, "nsURI", EPACKAGE__NS_URI);
   (cEPackage, "nsPrefix", EPACKAGE__NS_PREFIX);
   (cEPackage, "eFactoryInstance", EPACKAGE__EFACTORY_INSTANCE);
   (cEPackage, "eClassifiers", EPACKAGE__ECLASSIFIERS);
   (cEPackage, "eSubPackages", EPACKAGE__ESUB_PACKAGES);
   (cEPackage, "eSuperPackage", EPACKAGE__ESUPER_PACKAGE);
   (cEParameter, "eAnnotations", EPARAMETER__EANNOTATIONS);
   (cEParameter, "name", EPARAMETER__NAME);
   (cEParameter, "ordered", EPARAMETER__ORDERED);
   (cEParameter, "unique", EPARAMETER__UNIQUE);
   (cEParameter, "lowerBound", EPARAMETER__LOWER_BOUND);
   (cEParameter, "upperBound", EPARAMETER__UPPER_BOUND);
   (cEParameter, "many", EPARAMETER__MANY);
   (cEParameter, "required", EPARAMETER__REQUIRED);
   (cEParameter, "eType", EPARAMETER__ETYPE);
   (cEParameter, "eOperation", EPARAMETER__EOPERATION);
   (cEReference, "eAnnotations", EREFERENCE__EANNOTATIONS);
   (cEReference, "name", EREFERENCE__NAME);
   (cEReference, "ordered", EREFERENCE__ORDERED);
   (cEReference, "unique", EREFERENCE__UNIQUE);
   (cEReference, "lowerBound", EREFERENCE__LOWER_BOUND);
   (cEReference, "upperBound", EREFERENCE__UPPER_BOUND);
   (cEReference, "many", EREFERENCE__MANY);
   (cEReference, "required", EREFERENCE__REQUIRED);
   (cEReference, "eType", EREFERENCE__ETYPE);
   (cEReference, "changeable", EREFERENCE__CHANGEABLE);
   (cEReference, "volatile", EREFERENCE__VOLATILE);
   (cEReference, "transient", EREFERENCE__TRANSIENT);
   (cEReference, "defaultValueLiteral", EREFERENCE__DEFAULT_VALUE_LITERAL);
   (cEReference, "defaultValue", EREFERENCE__DEFAULT_VALUE);
   (cEReference, "unsettable", EREFERENCE__UNSETTABLE);
   (cEReference, "derived", EREFERENCE__DERIVED);
   (cEReference, "eContainingClass", EREFERENCE__ECONTAINING_CLASS);
   (cEReference, "featureID", EREFERENCE__FEATURE_ID);
   (cEReference, "containment", EREFERENCE__CONTAINMENT);
   (cEReference, "container", EREFERENCE__CONTAINER);
   (cEReference, "resolveProxies", EREFERENCE__RESOLVE_PROXIES);
   (cEReference, "eOpposite", EREFERENCE__EOPPOSITE);
   (cEReference, "eReferenceType", EREFERENCE__EREFERENCE_TYPE);
   (cEReference, "eKeys", EREFERENCE__EKEYS);
   (cEStringToStringMapEntry, "key", ESTRING_TO_STRING_MAP_ENTRY__KEY);
   (cEStringToStringMapEntry, "value", ESTRING_TO_STRING_MAP_ENTRY__VALUE);
   (cEGenericType, "eUpperBound", EGENERIC_TYPE__EUPPER_BOUND);
   (cEGenericType, "eTypeArguments", EGENERIC_TYPE__ETYPE_ARGUMENTS);
   (cEGenericType, "eRawType", EGENERIC_TYPE__ERAW_TYPE);
   (cEGenericType, "eLowerBound", EGENERIC_TYPE__ELOWER_BOUND);
   (cEGenericType, "eTypeParameter", EGENERIC_TYPE__ETYPE_PARAMETER);
   (cEGenericType, "eClassifier", EGENERIC_TYPE__ECLASSIFIER);
   (cETypeParameter, "eAnnotations", ETYPE_PARAMETER__EANNOTATIONS);
   (cETypeParameter, "name", ETYPE_PARAMETER__NAME);
   (cETypeParameter, "eBounds", ETYPE_PARAMETER__EBOUNDS)].
Definition feature_counts : list (nat * Z) :=
  [
   (cEModelElement, EMODEL_ELEMENT_FEATURE_COUNT);
   (cENamedElement, ENAMED_ELEMENT_FEATURE_COUNT);
   (cETypedElement, ETYPED_ELEMENT_FEATURE_COUNT);
   (cEStructuralFeature, ESTRUCTURAL_FEATURE_FEATURE_COUNT);
   (cEAttribute, EATTRIBUTE_FEATURE_COUNT);
   (cEAnnotation, EANNOTATION_FEATURE_COUNT);
   (cEClassifier, ECLASSIFIER_FEATURE_COUNT);
   (cEClass, ECLASS_FEATURE_COUNT);
   (cEDataType, EDATA_TYPE_FEATURE_COUNT);
   (cEEnum, EENUM_FEATURE_COUNT);
   (cEEnumLiteral, EENUM_LITERAL_FEATURE_COUNT);
   (cEFactory, EFACTORY_FEATURE_COUNT);
   (cEObject, EOBJECT_FEATURE_COUNT);
   (cEOperation, EOPERATION_FEATURE_COUNT);
   (cEPackage, EPACKAGE_FEATURE_COUNT);
   (cEParameter, EPARAMETER_FEATURE_COUNT);
   (cEReference, EREFERENCE_FEATURE_COUNT);
   (cEStringToStringMapEntry, ESTRING_TO_STRING_MAP_ENTRY_FEATURE_COUNT);
   (cEGenericType, EGENERIC_TYPE_FEATURE_COUNT);
   (cETypeParameter, ETYPE_PARAMETER_FEATURE_COUNT)].

(** features in the order of their creation: the class, whether it is a reference, its identifier;
    createPackageContents, ecorepackage_impl.go:946-1139, with ecorefactory_impl.go
    (CreateEAttributeFromContainerAndClassID, CreateEReferenceFromContainerAndClassID) *)
Definition created : list (nat * bool * Z) :=
  [
   (cEAnnotation, false, EANNOTATION__SOURCE) (* 949 *);
   (cEAnnotation, true, EANNOTATION__DETAILS) (* 950 *);
   (cEAnnotation, true, EANNOTATION__EMODEL_ELEMENT) (* 951 *);
   (cEAnnotation, true, EANNOTATION__CONTENTS) (* 952 *);
   (cEAnnotation, true, EANNOTATION__REFERENCES) (* 953 *);
   (cEAttribute, false, EATTRIBUTE__ID) (* 956 *);
   (cEAttribute, true, EATTRIBUTE__EATTRIBUTE_TYPE) (* 957 *);
   (cEClass, false, ECLASS__ABSTRACT) (* 960 *);
   (cEClass, false, ECLASS__INTERFACE) (* 961 *);
   (cEClass, true, ECLASS__ESTRUCTURAL_FEATURES) (* 962 *);
   (cEClass, true, ECLASS__EATTRIBUTES) (* 963 *);
   (cEClass, true, ECLASS__EREFERENCES) (* 964 *);
   (cEClass, true, ECLASS__ESUPER_TYPES) (* 965 *);
   (cEClass, true, ECLASS__EOPERATIONS) (* 966 *);
   (cEClass, true, ECLASS__ECONTAINMENT_FEATURES) (* 967 *);
   (cEClass, true, ECLASS__ECROSS_REFERENCE_FEATURES) (* 968 *);
   (cEClass, true, ECLASS__EALL_ATTRIBUTES) (* 969 *);
   (cEClass, true, ECLASS__EALL_REFERENCES) (* 970 *);
   (cEClass, true, ECLASS__EALL_CONTAINMENTS) (* 971 *);
   (cEClass, true, ECLASS__EALL_CROSS_REFERENCES) (* 972 *);
   (cEClass, true, ECLASS__EALL_OPERATIONS) (* 973 *);
   (cEClass, true, ECLASS__EALL_STRUCTURAL_FEATURES) (* 974 *);
   (cEClass, true, ECLASS__EALL_SUPER_TYPES) (* 975 *);
   (cEClass, true, ECLASS__EID_ATTRIBUTE) (* 976 *);
   (cEClassifier, false, ECLASSIFIER__INSTANCE_CLASS_NAME) (* 989 *);
   (cEClassifier, false, ECLASSIFIER__INSTANCE_CLASS) (* 990 *);
   (cEClassifier, false, ECLASSIFIER__INSTANCE_TYPE_NAME) (* 991 *);
   (cEClassifier, false, ECLASSIFIER__DEFAULT_VALUE) (* 992 *);
   (cEClassifier, true, ECLASSIFIER__EPACKAGE) (* 993 *);
   (cEClassifier, false, ECLASSIFIER__CLASSIFIER_ID) (* 994 *);
   (cEDataType, false, EDATA_TYPE__SERIALIZABLE) (* 998 *);
   (cEEnum, true, EENUM__ELITERALS) (* 1001 *);
   (cEEnumLiteral, false, EENUM_LITERAL__VALUE) (* 1007 *);
   (cEEnumLiteral, false, EENUM_LITERAL__INSTANCE) (* 1008 *);
   (cEEnumLiteral, false, EENUM_LITERAL__LITERAL) (* 1009 *);
   (cEEnumLiteral, true, EENUM_LITERAL__EENUM) (* 1010 *);
   (cEFactory, true, EFACTORY__EPACKAGE) (* 1013 *);
   (cEGenericType, true, EGENERIC_TYPE__EUPPER_BOUND) (* 1019 *);
   (cEGenericType, true, EGENERIC_TYPE__ETYPE_ARGUMENTS) (* 1020 *);
   (cEGenericType, true, EGENERIC_TYPE__ERAW_TYPE) (* 1021 *);
   (cEGenericType, true, EGENERIC_TYPE__ELOWER_BOUND) (* 1022 *);
   (cEGenericType, true, EGENERIC_TYPE__ETYPE_PARAMETER) (* 1023 *);
   (cEGenericType, true, EGENERIC_TYPE__ECLASSIFIER) (* 1024 *);
   (cEModelElement, true, EMODEL_ELEMENT__EANNOTATIONS) (* 1028 *);
   (cENamedElement, false, ENAMED_ELEMENT__NAME) (* 1032 *);
   (cEOperation, true, EOPERATION__ECONTAINING_CLASS) (* 1052 *);
   (cEOperation, true, EOPERATION__EPARAMETERS) (* 1053 *);
   (cEOperation, true, EOPERATION__EEXCEPTIONS) (* 1054 *);
   (cEOperation, false, EOPERATION__OPERATION_ID) (* 1055 *);
   (cEPackage, false, EPACKAGE__NS_URI) (* 1059 *);
   (cEPackage, false, EPACKAGE__NS_PREFIX) (* 1060 *);
   (cEPackage, true, EPACKAGE__EFACTORY_INSTANCE) (* 1061 *);
   (cEPackage, true, EPACKAGE__ECLASSIFIERS) (* 1062 *);
   (cEPackage, true, EPACKAGE__ESUB_PACKAGES) (* 1063 *);
   (cEPackage, true, EPACKAGE__ESUPER_PACKAGE) (* 1064 *);
   (cEParameter, true, EPARAMETER__EOPERATION) (* 1068 *);
   (cEReference, false, EREFERENCE__CONTAINMENT) (* 1071 *);
   (cEReference, false, EREFERENCE__CONTAINER) (* 1072 *);
   (cEReference, false, EREFERENCE__RESOLVE_PROXIES) (* 1073 *);
   (cEReference, true, EREFERENCE__EOPPOSITE) (* 1074 *);
   (cEReference, true, EREFERENCE__EREFERENCE_TYPE) (* 1075 *);
   (cEReference, true, EREFERENCE__EKEYS) (* 1076 *);
   (cEStringToStringMapEntry, false, ESTRING_TO_STRING_MAP_ENTRY__KEY) (* 1079 *);
   (cEStringToStringMapEntry, false, ESTRING_TO_STRING_MAP_ENTRY__VALUE) (* 1080 *);
   (cEStructuralFeature, false, ESTRUCTURAL_FEATURE__CHANGEABLE) (* 1083 *);
   (cEStructuralFeature, false, ESTRUCTURAL_FEATURE__VOLATILE) (* 1084 *);
   (cEStructuralFeature, false, ESTRUCTURAL_FEATURE__TRANSIENT) (* 1085 *);
   (cEStructuralFeature, false, ESTRUCTURAL_FEATURE__DEFAULT_VALUE_LITERAL) (* 1086 *);
   (cEStructuralFeature, false, ESTRUCTURAL_FEATURE__DEFAULT_VALUE) (* 1087 *);
   (cEStructuralFeature, false, ESTRUCTURAL_FEATURE__UNSETTABLE) (* 1088 *);
   (cEStructuralFeature, false, ESTRUCTURAL_FEATURE__DERIVED) (* 1089 *);
   (cEStructuralFeature, true, ESTRUCTURAL_FEATURE__ECONTAINING_CLASS) (* 1090 *);
   (cEStructuralFeature, false, ESTRUCTURAL_FEATURE__FEATURE_ID) (* 1091 *);
   (cETypeParameter, true, ETYPE_PARAMETER__EBOUNDS) (* 1095 *);
   (cETypedElement, false, ETYPED_ELEMENT__ORDERED) (* 1098 *);
   (cETypedElement, false, ETYPED_ELEMENT__UNIQUE) (* 1099 *);
   (cETypedElement, false, ETYPED_ELEMENT__LOWER_BOUND) (* 1100 *);
   (cETypedElement, false, ETYPED_ELEMENT__UPPER_BOUND) (* 1101 *);
   (cETypedElement, false, ETYPED_ELEMENT__MANY) (* 1102 *);
   (cETypedElement, false, ETYPED_ELEMENT__REQUIRED) (* 1103 *);
   (cETypedElement, true, ETYPED_ELEMENT__ETYPE) (* 1104 *)].

(** the accessors GetX_Y of the package: the class and the position they read,
    ecorepackage_impl.go:146-944 *)
Definition getters : list (string * (nat * nat)) :=
  [
   ("GetEAnnotation_Source", (cEAnnotation, 0%nat)) (* 98 *);
   ("GetEAnnotation_Contents", (cEAnnotation, 3%nat)) (* 103 *);
   ("GetEAnnotation_Details", (cEAnnotation, 1%nat)) (* 108 *);
   ("GetEAnnotation_EModelElement", (cEAnnotation, 2%nat)) (* 113 *);
   ("GetEAnnotation_References", (cEAnnotation, 4%nat)) (* 118 *);
   ("GetEAttribute_ID", (cEAttribute, 0%nat)) (* 128 *);
   ("GetEAttribute_EAttributeType", (cEAttribute, 1%nat)) (* 133 *);
   ("GetEClass_Abstract", (cEClass, 0%nat)) (* 143 *);
   ("GetEClass_Interface", (cEClass, 1%nat)) (* 148 *);
   ("GetEClass_EAllAttributes", (cEClass, 9%nat)) (* 153 *);
   ("GetEClass_EAllContainments", (cEClass, 11%nat)) (* 158 *);
   ("GetEClass_EAllCrossReferences", (cEClass, 12%nat)) (* 163 *);
   ("GetEClass_EAllOperations", (cEClass, 13%nat)) (* 168 *);
   ("GetEClass_EAllReferences", (cEClass, 10%nat)) (* 173 *);
   ("GetEClass_EAllStructuralFeatures", (cEClass, 14%nat)) (* 178 *);
   ("GetEClass_EAllSuperTypes", (cEClass, 15%nat)) (* 183 *);
   ("GetEClass_EAttributes", (cEClass, 3%nat)) (* 188 *);
   ("GetEClass_EContainmentFeatures", (cEClass, 7%nat)) (* 193 *);
   ("GetEClass_ECrossReferenceFeatures", (cEClass, 8%nat)) (* 198 *);
   ("GetEClass_EIDAttribute", (cEClass, 16%nat)) (* 203 *);
   ("GetEClass_EOperations", (cEClass, 6%nat)) (* 208 *);
   ("GetEClass_EReferences", (cEClass, 4%nat)) (* 213 *);
   ("GetEClass_EStructuralFeatures", (cEClass, 2%nat)) (* 218 *);
   ("GetEClass_ESuperTypes", (cEClass, 5%nat)) (* 223 *);
   ("GetEClassifier_ClassifierID", (cEClassifier, 5%nat)) (* 283 *);
   ("GetEClassifier_DefaultValue", (cEClassifier, 3%nat)) (* 288 *);
   ("GetEClassifier_InstanceClass", (cEClassifier, 1%nat)) (* 293 *);
   ("GetEClassifier_InstanceClassName", (cEClassifier, 0%nat)) (* 298 *);
   ("GetEClassifier_InstanceTypeName", (cEClassifier, 2%nat)) (* 303 *);
   ("GetEClassifier_EPackage", (cEClassifier, 4%nat)) (* 308 *);
   ("GetEDataType_Serializable", (cEDataType, 0%nat)) (* 323 *);
   ("GetEEnum_ELiterals", (cEEnum, 0%nat)) (* 333 *);
   ("GetEEnumLiteral_Instance", (cEEnumLiteral, 1%nat)) (* 358 *);
   ("GetEEnumLiteral_Literal", (cEEnumLiteral, 2%nat)) (* 363 *);
   ("GetEEnumLiteral_Value", (cEEnumLiteral, 0%nat)) (* 368 *);
   ("GetEEnumLiteral_EEnum", (cEEnumLiteral, 3%nat)) (* 373 *);
   ("GetEFactory_EPackage", (cEFactory, 0%nat)) (* 383 *);
   ("GetEGenericType_EClassifier", (cEGenericType, 5%nat)) (* 408 *);
   ("GetEGenericType_ELowerBound", (cEGenericType, 3%nat)) (* 413 *);
   ("GetEGenericType_ERawType", (cEGenericType, 2%nat)) (* 418 *);
   ("GetEGenericType_ETypeArguments", (cEGenericType, 1%nat)) (* 423 *);
   ("GetEGenericType_ETypeParameter", (cEGenericType, 4%nat)) (* 428 *);
   ("GetEGenericType_EUpperBound", (cEGenericType, 0%nat)) (* 433 *);
   ("GetEModelElement_EAnnotations", (cEModelElement, 0%nat)) (* 448 *);
   ("GetENamedElement_Name", (cENamedElement, 0%nat)) (* 463 *);
   ("GetEOperation_OperationID", (cEOperation, 3%nat)) (* 553 *);
   ("GetEOperation_EContainingClass", (cEOperation, 0%nat)) (* 558 *);
   ("GetEOperation_EExceptions", (cEOperation, 2%nat)) (* 563 *);
   ("GetEOperation_EParameters", (cEOperation, 1%nat)) (* 568 *);
   ("GetEPackage_NsPrefix", (cEPackage, 1%nat)) (* 583 *);
   ("GetEPackage_NsURI", (cEPackage, 0%nat)) (* 588 *);
   ("GetEPackage_EClassifiers", (cEPackage, 3%nat)) (* 593 *);
   ("GetEPackage_EFactoryInstance", (cEPackage, 2%nat)) (* 598 *);
   ("GetEPackage_ESubPackages", (cEPackage, 4%nat)) (* 603 *);
   ("GetEPackage_ESuperPackage", (cEPackage, 5%nat)) (* 608 *);
   ("GetEParameter_EOperation", (cEParameter, 0%nat)) (* 623 *);
   ("GetEReference_Container", (cEReference, 1%nat)) (* 633 *);
   ("GetEReference_Containment", (cEReference, 0%nat)) (* 638 *);
   ("GetEReference_ResolveProxies", (cEReference, 2%nat)) (* 643 *);
   ("GetEReference_EKeys", (cEReference, 5%nat)) (* 648 *);
   ("GetEReference_EOpposite", (cEReference, 3%nat)) (* 653 *);
   ("GetEReference_EReferenceType", (cEReference, 4%nat)) (* 658 *);
   ("GetEStringToStringMapEntry_Key", (cEStringToStringMapEntry, 0%nat)) (* 668 *);
   ("GetEStringToStringMapEntry_Value", (cEStringToStringMapEntry, 1%nat)) (* 673 *);
   ("GetEStructuralFeature_Changeable", (cEStructuralFeature, 0%nat)) (* 683 *);
   ("GetEStructuralFeature_DefaultValue", (cEStructuralFeature, 4%nat)) (* 688 *);
   ("GetEStructuralFeature_DefaultValueLiteral", (cEStructuralFeature, 3%nat)) (* 693 *);
   ("GetEStructuralFeature_Derived", (cEStructuralFeature, 6%nat)) (* 698 *);
   ("GetEStructuralFeature_FeatureID", (cEStructuralFeature, 8%nat)) (* 703 *);
   ("GetEStructuralFeature_Transient", (cEStructuralFeature, 2%nat)) (* 708 *);
   ("GetEStructuralFeature_Unsettable", (cEStructuralFeature, 5%nat)) (* 713 *);
   ("GetEStructuralFeature_Volatile", (cEStructuralFeature, 1%nat)) (* 718 *);
   ("GetEStructuralFeature_EContainingClass", (cEStructuralFeature, 7%nat)) (* 723 *);
   ("GetETypeParameter_EBounds", (cETypeParameter, 0%nat)) (* 738 *);
   ("GetETypedElement_LowerBound", (cETypedElement, 2%nat)) (* 748 *);
   ("GetETypedElement_Many", (cETypedElement, 4%nat)) (* 753 *);
   ("GetETypedElement_Ordered", (cETypedElement, 0%nat)) (* 758 *);
   ("GetETypedElement_Required", (cETypedElement, 5%nat)) (* 763 *);
   ("GetETypedElement_Unique", (cETypedElement, 1%nat)) (* 768 *);
   ("GetETypedElement_UpperBound", (cETypedElement, 3%nat)) (* 773 *);
   ("GetETypedElement_EType", (cETypedElement, 6%nat)) (* 778 *)].

(** supertypes, initializePackageContents, ecorepackage_impl.go:1144-1159 *)
Definition supertypes : list (nat * nat) :=
  [
   (cEAnnotation, cEModelElement) (* 1144 *);
   (cEAttribute, cEStructuralFeature) (* 1145 *);
   (cEClass, cEClassifier) (* 1146 *);
   (cEClassifier, cENamedElement) (* 1147 *);
   (cEDataType, cEClassifier) (* 1148 *);
   (cEEnum, cEDataType) (* 1149 *);
   (cEEnumLiteral, cENamedElement) (* 1150 *);
   (cEFactory, cEModelElement) (* 1151 *);
   (cENamedElement, cEModelElement) (* 1152 *);
   (cEOperation, cETypedElement) (* 1153 *);
   (cEPackage, cENamedElement) (* 1154 *);
   (cEParameter, cETypedElement) (* 1155 *);
   (cEReference, cEStructuralFeature) (* 1156 *);
   (cEStructuralFeature, cETypedElement) (* 1157 *);
   (cETypeParameter, cENamedElement) (* 1158 *);
   (cETypedElement, cENamedElement) (* 1159 *)].

(** InitEAttribute and InitEReference of initializePackageContents, ecorepackage_impl.go:1161-1410 *)
Definition descriptions : list description :=
  [
   Desc "GetEAnnotation_Source" "source" None "" (0) (1) false false true false true false None false false (* 1162 *);
   Desc "GetEAnnotation_Details" "details" (Some cEStringToStringMapEntry) "" (0) (-1) false false true false true false None true false (* 1163 *);
   Desc "GetEAnnotation_EModelElement" "eModelElement" (Some cEModelElement) "" (0) (1) true false true false true false (Some "GetEModelElement_EAnnotations") false false (* 1164 *);
   Desc "GetEAnnotation_Contents" "contents" (Some cEObject) "" (0) (-1) false false true false true false None true false (* 1165 *);
   Desc "GetEAnnotation_References" "references" (Some cEObject) "" (0) (-1) false false true false true false None false true (* 1166 *);
   Desc "GetEAttribute_ID" "iD" None "" (0) (1) false false true false true false None false false (* 1169 *);
   Desc "GetEAttribute_EAttributeType" "eAttributeType" (Some cEDataType) "" (1) (1) true true false false true true None false true (* 1170 *);
   Desc "GetEClass_Abstract" "abstract" None "" (0) (1) false false true false true false None false false (* 1173 *);
   Desc "GetEClass_Interface" "interface" None "" (0) (1) false false true false true false None false false (* 1174 *);
   Desc "GetEClass_EStructuralFeatures" "eStructuralFeatures" (Some cEStructuralFeature) "" (0) (-1) false false true false true false (Some "GetEStructuralFeature_EContainingClass") true false (* 1175 *);
   Desc "GetEClass_EAttributes" "eAttributes" (Some cEAttribute) "" (0) (-1) true false false false true true None false true (* 1176 *);
   Desc "GetEClass_EReferences" "eReferences" (Some cEReference) "" (0) (-1) true false false false true true None false true (* 1177 *);
   Desc "GetEClass_ESuperTypes" "eSuperTypes" (Some cEClass) "" (0) (-1) false false true false true false None false true (* 1178 *);
   Desc "GetEClass_EOperations" "eOperations" (Some cEOperation) "" (0) (-1) false false true false true false (Some "GetEOperation_EContainingClass") true false (* 1179 *);
   Desc "GetEClass_EContainmentFeatures" "eContainmentFeatures" (Some cEStructuralFeature) "" (0) (-1) true false false false true true None false true (* 1180 *);
   Desc "GetEClass_ECrossReferenceFeatures" "eCrossReferenceFeatures" (Some cEStructuralFeature) "" (0) (-1) true false false false true true None false true (* 1181 *);
   Desc "GetEClass_EAllAttributes" "eAllAttributes" (Some cEAttribute) "" (0) (-1) true false false false true true None false true (* 1182 *);
   Desc "GetEClass_EAllReferences" "eAllReferences" (Some cEReference) "" (0) (-1) true false false false true true None false true (* 1183 *);
   Desc "GetEClass_EAllContainments" "eAllContainments" (Some cEReference) "" (0) (-1) true false false false true true None false true (* 1184 *);
   Desc "GetEClass_EAllCrossReferences" "eAllCrossReferences" (Some cEReference) "" (0) (-1) true false false false true true None false true (* 1185 *);
   Desc "GetEClass_EAllOperations" "eAllOperations" (Some cEOperation) "" (0) (-1) true false false false true true None false true (* 1186 *);
   Desc "GetEClass_EAllStructuralFeatures" "eAllStructuralFeatures" (Some cEStructuralFeature) "" (0) (-1) true false false false true true None false true (* 1187 *);
   Desc "GetEClass_EAllSuperTypes" "eAllSuperTypes" (Some cEClass) "" (0) (-1) true false false false true true None false true (* 1188 *);
   Desc "GetEClass_EIDAttribute" "eIDAttribute" (Some cEAttribute) "" (0) (1) true false false false true true None false false (* 1189 *);
   Desc "GetEClassifier_InstanceClassName" "instanceClassName" None "" (0) (1) false false true false true false None false false (* 1234 *);
   Desc "GetEClassifier_InstanceClass" "instanceClass" None "" (0) (1) false false true false true false None false false (* 1235 *);
   Desc "GetEClassifier_InstanceTypeName" "instanceTypeName" None "" (0) (1) false true true false true false None false false (* 1236 *);
   Desc "GetEClassifier_DefaultValue" "defaultValue" None "" (0) (1) true true false false true true None false false (* 1237 *);
   Desc "GetEClassifier_ClassifierID" "classifierID" None "-1" (0) (1) true false true false true false None false false (* 1238 *);
   Desc "GetEClassifier_EPackage" "ePackage" (Some cEPackage) "" (0) (1) true false false false true false (Some "GetEPackage_EClassifiers") false true (* 1239 *);
   Desc "GetEDataType_Serializable" "serializable" None "true" (0) (1) false false true false true false None false false (* 1247 *);
   Desc "GetEEnum_ELiterals" "eLiterals" (Some cEEnumLiteral) "" (0) (-1) false false true false true false (Some "GetEEnumLiteral_EEnum") true false (* 1250 *);
   Desc "GetEEnumLiteral_Value" "value" None "" (0) (1) false false true false true false None false false (* 1268 *);
   Desc "GetEEnumLiteral_Instance" "instance" None "" (0) (1) true false true false true false None false false (* 1269 *);
   Desc "GetEEnumLiteral_Literal" "literal" None "" (0) (1) false false true false true false None false false (* 1270 *);
   Desc "GetEEnumLiteral_EEnum" "eEnum" (Some cEEnum) "" (0) (1) true false false false true false (Some "GetEEnum_ELiterals") false false (* 1271 *);
   Desc "GetEFactory_EPackage" "ePackage" (Some cEPackage) "" (1) (1) true false true false true false (Some "GetEPackage_EFactoryInstance") false false (* 1274 *);
   Desc "GetEGenericType_EUpperBound" "eUpperBound" (Some cEGenericType) "" (0) (1) false false true false true false None true false (* 1294 *);
   Desc "GetEGenericType_ETypeArguments" "eTypeArguments" (Some cEGenericType) "" (0) (-1) false false true false true false None true false (* 1295 *);
   Desc "GetEGenericType_ERawType" "eRawType" (Some cEClassifier) "" (1) (1) true false false false true true None false true (* 1296 *);
   Desc "GetEGenericType_ELowerBound" "eLowerBound" (Some cEGenericType) "" (0) (1) false false true false true false None true false (* 1297 *);
   Desc "GetEGenericType_ETypeParameter" "eTypeParameter" (Some cETypeParameter) "" (0) (1) false false true false true false None false false (* 1298 *);
   Desc "GetEGenericType_EClassifier" "eClassifier" (Some cEClassifier) "" (0) (1) false false true false true false None false true (* 1299 *);
   Desc "GetEModelElement_EAnnotations" "eAnnotations" (Some cEAnnotation) "" (0) (-1) false false true false true false (Some "GetEAnnotation_EModelElement") true false (* 1307 *);
   Desc "GetENamedElement_Name" "name" None "" (0) (1) false false true false true false None false false (* 1315 *);
   Desc "GetEOperation_OperationID" "operationID" None "-1" (0) (1) false false true false true false None false false (* 1362 *);
   Desc "GetEOperation_EContainingClass" "eContainingClass" (Some cEClass) "" (0) (1) true false false false true false (Some "GetEClass_EOperations") false false (* 1363 *);
   Desc "GetEOperation_EParameters" "eParameters" (Some cEParameter) "" (0) (-1) false false true false true false (Some "GetEParameter_EOperation") true false (* 1364 *);
   Desc "GetEOperation_EExceptions" "eExceptions" (Some cEClassifier) "" (0) (-1) false false true true true false None false true (* 1365 *);
   Desc "GetEPackage_NsURI" "nsURI" None "" (0) (1) false false true false true false None false false (* 1373 *);
   Desc "GetEPackage_NsPrefix" "nsPrefix" None "" (0) (1) false false true false true false None false false (* 1374 *);
   Desc "GetEPackage_EFactoryInstance" "eFactoryInstance" (Some cEFactory) "" (1) (1) true false true false true false (Some "GetEFactory_EPackage") true false (* 1375 *);
   Desc "GetEPackage_EClassifiers" "eClassifiers" (Some cEClassifier) "" (0) (-1) false false true false true false (Some "GetEClassifier_EPackage") true true (* 1376 *);
   Desc "GetEPackage_ESubPackages" "eSubPackages" (Some cEPackage) "" (0) (-1) false false true false true false (Some "GetEPackage_ESuperPackage") true true (* 1377 *);
   Desc "GetEPackage_ESuperPackage" "eSuperPackage" (Some cEPackage) "" (0) (1) true false false false true false (Some "GetEPackage_ESubPackages") false true (* 1378 *);
   Desc "GetEParameter_EOperation" "eOperation" (Some cEOperation) "" (0) (1) true false false false true false (Some "GetEOperation_EParameters") false false (* 1386 *);
   Desc "GetEReference_Containment" "containment" None "" (0) (1) false false true false true false None false false (* 1389 *);
   Desc "GetEReference_Container" "container" None "" (0) (1) true true false false true true None false false (* 1390 *);
   Desc "GetEReference_ResolveProxies" "resolveProxies" None "true" (0) (1) false false true false true false None false false (* 1391 *);
   Desc "GetEReference_EOpposite" "eOpposite" (Some cEReference) "" (0) (1) false false true false true false None false true (* 1392 *);
   Desc "GetEReference_EReferenceType" "eReferenceType" (Some cEClass) "" (1) (1) true true false false true true None false true (* 1393 *);
   Desc "GetEReference_EKeys" "eKeys" (Some cEAttribute) "" (0) (-1) false false true false true false None false true (* 1394 *);
   Desc "GetEStringToStringMapEntry_Key" "key" None "" (0) (1) false false true false true false None false false (* 1397 *);
   Desc "GetEStringToStringMapEntry_Value" "value" None "" (0) (1) false false true false true false None false false (* 1398 *);
   Desc "GetEStructuralFeature_Changeable" "changeable" None "true" (0) (1) false false true false true false None false false (* 1401 *);
   Desc "GetEStructuralFeature_Volatile" "volatile" None "" (0) (1) false false true false true false None false false (* 1402 *);
   Desc "GetEStructuralFeature_Transient" "transient" None "" (0) (1) false false true false true false None false false (* 1403 *);
   Desc "GetEStructuralFeature_DefaultValueLiteral" "defaultValueLiteral" None "" (0) (1) false false true false true false None false false (* 1404 *);
   Desc "GetEStructuralFeature_DefaultValue" "defaultValue" None "" (0) (1) true true true false true true None false false (* 1405 *);
   Desc "GetEStructuralFeature_Unsettable" "unsettable" None "" (0) (1) false false true false true false None false false (* 1406 *);
   Desc "GetEStructuralFeature_Derived" "derived" None "" (0) (1) false false true false true false None false false (* 1407 *);
   Desc "GetEStructuralFeature_FeatureID" "featureID" None "-1" (0) (1) true false true false true false None false false (* 1408 *);
   Desc "GetEStructuralFeature_EContainingClass" "eContainingClass" (Some cEClass) "" (0) (1) true false false false true false (Some "GetEClass_EStructuralFeatures") false false (* 1409 *);
   Desc "GetETypeParameter_EBounds" "eBounds" (Some cEGenericType) "" (0) (-1) false false true false true false None true false (* 1413 *);
   Desc "GetETypedElement_Ordered" "ordered" None "true" (0) (1) false false true false true false None false false (* 1416 *);
   Desc "GetETypedElement_Unique" "unique" None "true" (0) (1) false false true false true false None false false (* 1417 *);
   Desc "GetETypedElement_LowerBound" "lowerBound" None "" (0) (1) false false true false true false None false false (* 1418 *);
   Desc "GetETypedElement_UpperBound" "upperBound" None "1" (0) (1) false false true false true false None false false (* 1419 *);
   Desc "GetETypedElement_Many" "many" None "" (0) (1) true true false false true true None false false (* 1420 *);
   Desc "GetETypedElement_Required" "required" None "" (0) (1) true true false false true true None false false (* 1421 *);
   Desc "GetETypedElement_EType" "eType" (Some cEClassifier) "" (0) (1) false false true true true false None false true (* 1422 *)].

(** *** EAnnotation, eannotation_impl.go *)
Definition EAnnotation_embeds : option nat := Some cEModelElement. (* embeds EModelElementExt *)
(** EStaticClass, EStaticFeatureCount, eannotation_impl.go:58-64 *)
Definition EAnnotation_static : nat * Z := (cEAnnotation, EANNOTATION_FEATURE_COUNT).
(** EGetFromID, eannotation_impl.go:147-168 *)
Definition EAnnotation_get : list (Z * get_case) :=
  [(EANNOTATION__CONTENTS, GCall "GetContents");
   (EANNOTATION__DETAILS, GCall "GetDetails");
   (EANNOTATION__EMODEL_ELEMENT, GCall "GetEModelElement");
   (EANNOTATION__REFERENCES, GListUnres "GetReferences");
   (EANNOTATION__SOURCE, GCall "GetSource")].
(** ESetFromID, eannotation_impl.go:170-192 *)
Definition EAnnotation_set : list (Z * set_case) :=
  [(EANNOTATION__CONTENTS, SList "GetContents");
   (EANNOTATION__DETAILS, SList "GetDetails");
   (EANNOTATION__EMODEL_ELEMENT, SCallOrNil "SetEModelElement" "EModelElement");
   (EANNOTATION__REFERENCES, SList "GetReferences");
   (EANNOTATION__SOURCE, SCall "SetSource" "string")].
(** EUnsetFromID, eannotation_impl.go:194-209 *)
Definition EAnnotation_unset : list (Z * unset_case) :=
  [(EANNOTATION__CONTENTS, UClear "GetContents");
   (EANNOTATION__DETAILS, UClear "GetDetails");
   (EANNOTATION__EMODEL_ELEMENT, UCall "SetEModelElement" (LNil));
   (EANNOTATION__REFERENCES, UClear "GetReferences");
   (EANNOTATION__SOURCE, UCall "SetSource" (LStr ""))].
(** EIsSetFromID, eannotation_impl.go:211-226 *)
Definition EAnnotation_isSet : list (Z * isSet_case) :=
  [(EANNOTATION__CONTENTS, IList "contents");
   (EANNOTATION__DETAILS, IList "details");
   (EANNOTATION__EMODEL_ELEMENT, ICall "GetEModelElement" (LNil));
   (EANNOTATION__REFERENCES, IList "references");
   (EANNOTATION__SOURCE, IField "source" (LStr ""))].
(** EBasicInverseAdd, eannotation_impl.go:228-239 *)
Definition EAnnotation_add : list (Z * add_case) :=
  [(EANNOTATION__EMODEL_ELEMENT, AContainer (BCall "basicSetEModelElement"))].
(** EBasicInverseRemove, eannotation_impl.go:241-253 *)
Definition EAnnotation_remove : list (Z * remove_case) :=
  [(EANNOTATION__CONTENTS, RmList "GetContents");
   (EANNOTATION__DETAILS, RmNothing);
   (EANNOTATION__EMODEL_ELEMENT, RmBasic (BCall "basicSetEModelElement"))].
Definition EAnnotation_getters : list (string * getter) :=
  [("GetContents", MLazy "contents" "initContents") (* 67-72 *);
   ("GetDetails", MLazy "details" "initDetails") (* 75-80 *);
   ("GetEModelElement", MContainer EANNOTATION__EMODEL_ELEMENT) (* 83-88 *);
   ("GetReferences", MLazy "references" "initReferences") (* 114-119 *);
   ("GetSource", MField "source") (* 122-124 *)].
Definition EAnnotation_setters : list (string * setter) :=
  [("SetEModelElement", TContainer EANNOTATION__EMODEL_ELEMENT EMODEL_ELEMENT__EANNOTATIONS (BCall "basicSetEModelElement")) (* 91-107 *);
   ("SetSource", TField "source" EANNOTATION__SOURCE) (* 127-133 *)].
Definition EAnnotation_basics : list (string * basic) :=
  [("basicSetEModelElement", BContainer EANNOTATION__EMODEL_ELEMENT) (* 109-111 *)].
Definition EAnnotation_unsetters : list (string * unsetter) := [].
Definition EAnnotation_inits : list (string * new_value) :=
  [("initContents", NList "" EANNOTATION__CONTENTS (-1) true true false false false) (* 135-137 *);
   ("initDetails", NMap EANNOTATION__DETAILS (-1) false) (* 139-141 *);
   ("initReferences", NList "" EANNOTATION__REFERENCES (-1) false false false true false) (* 143-145 *)].
(** Initialize, eannotation_impl.go:40-44 *)
Definition EAnnotation_initialize : list (string * literal) := [("source", LStr "")].
Definition EAnnotation_class : class := Class EAnnotation_embeds EAnnotation_static EAnnotation_get EAnnotation_set EAnnotation_unset EAnnotation_isSet EAnnotation_add EAnnotation_remove
  EAnnotation_getters EAnnotation_setters EAnnotation_basics EAnnotation_unsetters EAnnotation_inits EAnnotation_initialize.

(** *** EAttribute, eattribute_impl.go *)
Definition EAttribute_embeds : option nat := Some cEStructuralFeature. (* embeds EStructuralFeatureExt *)
(** EStaticClass, EStaticFeatureCount, eattribute_impl.go:46-52 *)
Definition EAttribute_static : nat * Z := (cEAttribute, EATTRIBUTE_FEATURE_COUNT).
(** EGetFromID, eattribute_impl.go:77-89 *)
Definition EAttribute_get : list (Z * get_case) :=
  [(EATTRIBUTE__EATTRIBUTE_TYPE, GResolve "GetEAttributeType");
   (EATTRIBUTE__ID, GCall "IsID")].
(** ESetFromID, eattribute_impl.go:91-98 *)
Definition EAttribute_set : list (Z * set_case) :=
  [(EATTRIBUTE__ID, SCall "SetID" "bool")].
(** EUnsetFromID, eattribute_impl.go:100-107 *)
Definition EAttribute_unset : list (Z * unset_case) :=
  [(EATTRIBUTE__ID, UCall "SetID" (LBool false))].
(** EIsSetFromID, eattribute_impl.go:109-118 *)
Definition EAttribute_isSet : list (Z * isSet_case) :=
  [(EATTRIBUTE__EATTRIBUTE_TYPE, ICall "GetEAttributeType" (LNil));
   (EATTRIBUTE__ID, IField "isID" (LBool false))].
Definition EAttribute_add : list (Z * add_case) := [].
Definition EAttribute_remove : list (Z * remove_case) := [].
Definition EAttribute_getters : list (string * getter) :=
  [("GetEAttributeType", MPanic) (* 55-57 *);
   ("basicGetEAttributeType", MPanic) (* 59-61 *);
   ("IsID", MField "isID") (* 64-66 *)].
Definition EAttribute_setters : list (string * setter) :=
  [("SetID", TField "isID" EATTRIBUTE__ID) (* 69-75 *)].
Definition EAttribute_basics : list (string * basic) := [].
Definition EAttribute_unsetters : list (string * unsetter) := [].
Definition EAttribute_inits : list (string * new_value) := [].
(** Initialize, eattribute_impl.go:32-36 *)
Definition EAttribute_initialize : list (string * literal) := [("isID", LBool false)].
Definition EAttribute_class : class := Class EAttribute_embeds EAttribute_static EAttribute_get EAttribute_set EAttribute_unset EAttribute_isSet EAttribute_add EAttribute_remove
  EAttribute_getters EAttribute_setters EAttribute_basics EAttribute_unsetters EAttribute_inits EAttribute_initialize.

(** *** EClass, eclass_impl.go *)
Definition EClass_embeds : option nat := Some cEClassifier. (* embeds EClassifierExt *)
(** EStaticClass, EStaticFeatureCount, eclass_impl.go:76-82 *)
Definition EClass_static : nat * Z := (cEClass, ECLASS_FEATURE_COUNT).
(** EGetFromID, eclass_impl.go:318-429 *)
Definition EClass_get : list (Z * get_case) :=
  [(ECLASS__ABSTRACT, GCall "IsAbstract");
   (ECLASS__EALL_ATTRIBUTES, GListUnres "GetEAllAttributes");
   (ECLASS__EALL_CONTAINMENTS, GListUnres "GetEAllContainments");
   (ECLASS__EALL_CROSS_REFERENCES, GListUnres "GetEAllCrossReferences");
   (ECLASS__EALL_OPERATIONS, GListUnres "GetEAllOperations");
   (ECLASS__EALL_REFERENCES, GListUnres "GetEAllReferences");
   (ECLASS__EALL_STRUCTURAL_FEATURES, GListUnres "GetEAllStructuralFeatures");
   (ECLASS__EALL_SUPER_TYPES, GListUnres "GetEAllSuperTypes");
   (ECLASS__EATTRIBUTES, GListUnres "GetEAttributes");
   (ECLASS__ECONTAINMENT_FEATURES, GListUnres "GetEContainmentFeatures");
   (ECLASS__ECROSS_REFERENCE_FEATURES, GListUnres "GetECrossReferenceFeatures");
   (ECLASS__EID_ATTRIBUTE, GCall "GetEIDAttribute");
   (ECLASS__EOPERATIONS, GCall "GetEOperations");
   (ECLASS__EREFERENCES, GListUnres "GetEReferences");
   (ECLASS__ESTRUCTURAL_FEATURES, GCall "GetEStructuralFeatures");
   (ECLASS__ESUPER_TYPES, GListUnres "GetESuperTypes");
   (ECLASS__INTERFACE, GCall "IsInterface")].
(** ESetFromID, eclass_impl.go:431-452 *)
Definition EClass_set : list (Z * set_case) :=
  [(ECLASS__ABSTRACT, SCall "SetAbstract" "bool");
   (ECLASS__EOPERATIONS, SList "GetEOperations");
   (ECLASS__ESTRUCTURAL_FEATURES, SList "GetEStructuralFeatures");
   (ECLASS__ESUPER_TYPES, SList "GetESuperTypes");
   (ECLASS__INTERFACE, SCall "SetInterface" "bool")].
(** EUnsetFromID, eclass_impl.go:454-469 *)
Definition EClass_unset : list (Z * unset_case) :=
  [(ECLASS__ABSTRACT, UCall "SetAbstract" (LBool false));
   (ECLASS__EOPERATIONS, UClear "GetEOperations");
   (ECLASS__ESTRUCTURAL_FEATURES, UClear "GetEStructuralFeatures");
   (ECLASS__ESUPER_TYPES, UClear "GetESuperTypes");
   (ECLASS__INTERFACE, UCall "SetInterface" (LBool false))].
(** EIsSetFromID, eclass_impl.go:471-510 *)
Definition EClass_isSet : list (Z * isSet_case) :=
  [(ECLASS__ABSTRACT, IField "isAbstract" (LBool false));
   (ECLASS__EALL_ATTRIBUTES, IList "eAllAttributes");
   (ECLASS__EALL_CONTAINMENTS, IList "eAllContainments");
   (ECLASS__EALL_CROSS_REFERENCES, IList "eAllCrossReferences");
   (ECLASS__EALL_OPERATIONS, IList "eAllOperations");
   (ECLASS__EALL_REFERENCES, IList "eAllReferences");
   (ECLASS__EALL_STRUCTURAL_FEATURES, IList "eAllStructuralFeatures");
   (ECLASS__EALL_SUPER_TYPES, IList "eAllSuperTypes");
   (ECLASS__EATTRIBUTES, IList "eAttributes");
   (ECLASS__ECONTAINMENT_FEATURES, IList "eContainmentFeatures");
   (ECLASS__ECROSS_REFERENCE_FEATURES, IList "eCrossReferenceFeatures");
   (ECLASS__EID_ATTRIBUTE, IField "eIDAttribute" (LNil));
   (ECLASS__EOPERATIONS, IList "eOperations");
   (ECLASS__EREFERENCES, IList "eReferences");
   (ECLASS__ESTRUCTURAL_FEATURES, IList "eStructuralFeatures");
   (ECLASS__ESUPER_TYPES, IList "eSuperTypes");
   (ECLASS__INTERFACE, IField "isInterface" (LBool false))].
(** EBasicInverseAdd, eclass_impl.go:539-550 *)
Definition EClass_add : list (Z * add_case) :=
  [(ECLASS__EOPERATIONS, AList "GetEOperations");
   (ECLASS__ESTRUCTURAL_FEATURES, AList "GetEStructuralFeatures")].
(** EBasicInverseRemove, eclass_impl.go:552-563 *)
Definition EClass_remove : list (Z * remove_case) :=
  [(ECLASS__EOPERATIONS, RmList "GetEOperations");
   (ECLASS__ESTRUCTURAL_FEATURES, RmList "GetEStructuralFeatures")].
Definition EClass_getters : list (string * getter) :=
  [("GetEAllAttributes", MInit "initEAllAttributes" "eAllAttributes") (* 135-138 *);
   ("GetEAllContainments", MInit "initEAllContainments" "eAllContainments") (* 141-144 *);
   ("GetEAllCrossReferences", MInit "initEAllCrossReferences" "eAllCrossReferences") (* 147-150 *);
   ("GetEAllOperations", MInit "initEAllOperations" "eAllOperations") (* 153-156 *);
   ("GetEAllReferences", MInit "initEAllReferences" "eAllReferences") (* 159-162 *);
   ("GetEAllStructuralFeatures", MInit "initEAllStructuralFeatures" "eAllStructuralFeatures") (* 165-168 *);
   ("GetEAllSuperTypes", MInit "initEAllSuperTypes" "eAllSuperTypes") (* 171-174 *);
   ("GetEAttributes", MInit "initEAttributes" "eAttributes") (* 177-180 *);
   ("GetEContainmentFeatures", MInit "initEContainmentFeatures" "eContainmentFeatures") (* 183-186 *);
   ("GetECrossReferenceFeatures", MInit "initECrossReferenceFeatures" "eCrossReferenceFeatures") (* 189-192 *);
   ("GetEIDAttribute", MInit "initEIDAttribute" "eIDAttribute") (* 195-198 *);
   ("GetEOperations", MLazy "eOperations" "initEOperations") (* 201-206 *);
   ("GetEReferences", MInit "initEReferences" "eReferences") (* 209-212 *);
   ("GetEStructuralFeatures", MLazy "eStructuralFeatures" "initEStructuralFeatures") (* 215-220 *);
   ("GetESuperTypes", MLazy "eSuperTypes" "initESuperTypes") (* 223-228 *);
   ("IsAbstract", MField "isAbstract") (* 231-233 *);
   ("IsInterface", MField "isInterface") (* 245-247 *)].
Definition EClass_setters : list (string * setter) :=
  [("SetAbstract", TField "isAbstract" ECLASS__ABSTRACT) (* 236-242 *);
   ("SetInterface", TField "isInterface" ECLASS__INTERFACE) (* 250-256 *)].
Definition EClass_basics : list (string * basic) := [].
Definition EClass_unsetters : list (string * unsetter) := [].
Definition EClass_inits : list (string * new_value) :=
  [("initEAllAttributes", NList "eAllAttributes" ECLASS__EALL_ATTRIBUTES (-1) false false false true false) (* 258-260 *);
   ("initEAllContainments", NList "eAllContainments" ECLASS__EALL_CONTAINMENTS (-1) false false false true false) (* 262-264 *);
   ("initEAllCrossReferences", NList "eAllCrossReferences" ECLASS__EALL_CROSS_REFERENCES (-1) false false false true false) (* 266-268 *);
   ("initEAllOperations", NList "eAllOperations" ECLASS__EALL_OPERATIONS (-1) false false false true false) (* 270-272 *);
   ("initEAllReferences", NList "eAllReferences" ECLASS__EALL_REFERENCES (-1) false false false true false) (* 274-276 *);
   ("initEAllStructuralFeatures", NList "eAllStructuralFeatures" ECLASS__EALL_STRUCTURAL_FEATURES (-1) false false false true false) (* 278-280 *);
   ("initEAllSuperTypes", NList "eAllSuperTypes" ECLASS__EALL_SUPER_TYPES (-1) false false false true false) (* 282-284 *);
   ("initEAttributes", NList "eAttributes" ECLASS__EATTRIBUTES (-1) false false false true false) (* 286-288 *);
   ("initEContainmentFeatures", NList "eContainmentFeatures" ECLASS__ECONTAINMENT_FEATURES (-1) false false false true false) (* 290-292 *);
   ("initECrossReferenceFeatures", NList "eCrossReferenceFeatures" ECLASS__ECROSS_REFERENCE_FEATURES (-1) false false false true false) (* 294-296 *);
   ("initEIDAttribute", NPanic) (* 298-300 *);
   ("initEOperations", NList "" ECLASS__EOPERATIONS (EOPERATION__ECONTAINING_CLASS) true true true false false) (* 302-304 *);
   ("initEReferences", NList "eReferences" ECLASS__EREFERENCES (-1) false false false true false) (* 306-308 *);
   ("initEStructuralFeatures", NList "" ECLASS__ESTRUCTURAL_FEATURES (ESTRUCTURAL_FEATURE__ECONTAINING_CLASS) true true true false false) (* 310-312 *);
   ("initESuperTypes", NList "" ECLASS__ESUPER_TYPES (-1) false false false true false) (* 314-316 *)].
(** Initialize, eclass_impl.go:61-66 *)
Definition EClass_initialize : list (string * literal) := [("isAbstract", LBool false); ("isInterface", LBool false)].
Definition EClass_class : class := Class EClass_embeds EClass_static EClass_get EClass_set EClass_unset EClass_isSet EClass_add EClass_remove
  EClass_getters EClass_setters EClass_basics EClass_unsetters EClass_inits EClass_initialize.

(** *** EClassifier, eclassifier_impl.go *)
Definition EClassifier_embeds : option nat := Some cENamedElement. (* embeds ENamedElementImpl *)
(** EStaticClass, EStaticFeatureCount, eclassifier_impl.go:53-59 *)
Definition EClassifier_static : nat * Z := (cEClassifier, ECLASSIFIER_FEATURE_COUNT).
(** EGetFromID, eclassifier_impl.go:138-155 *)
Definition EClassifier_get : list (Z * get_case) :=
  [(ECLASSIFIER__CLASSIFIER_ID, GCall "GetClassifierID");
   (ECLASSIFIER__DEFAULT_VALUE, GCall "GetDefaultValue");
   (ECLASSIFIER__EPACKAGE, GCall "GetEPackage");
   (ECLASSIFIER__INSTANCE_CLASS, GCall "GetInstanceClass");
   (ECLASSIFIER__INSTANCE_CLASS_NAME, GCall "GetInstanceClassName");
   (ECLASSIFIER__INSTANCE_TYPE_NAME, GCall "GetInstanceTypeName")].
(** ESetFromID, eclassifier_impl.go:157-170 *)
Definition EClassifier_set : list (Z * set_case) :=
  [(ECLASSIFIER__CLASSIFIER_ID, SCall "SetClassifierID" "int");
   (ECLASSIFIER__INSTANCE_CLASS, SCall "SetInstanceClass" "reflect.Type");
   (ECLASSIFIER__INSTANCE_CLASS_NAME, SCall "SetInstanceClassName" "string");
   (ECLASSIFIER__INSTANCE_TYPE_NAME, SCall "SetInstanceTypeName" "string")].
(** EUnsetFromID, eclassifier_impl.go:172-185 *)
Definition EClassifier_unset : list (Z * unset_case) :=
  [(ECLASSIFIER__CLASSIFIER_ID, UCall "SetClassifierID" (LInt (-1)));
   (ECLASSIFIER__INSTANCE_CLASS, UCall "SetInstanceClass" (LNil));
   (ECLASSIFIER__INSTANCE_CLASS_NAME, UCall "SetInstanceClassName" (LStr ""));
   (ECLASSIFIER__INSTANCE_TYPE_NAME, UCall "SetInstanceTypeName" (LStr ""))].
(** EIsSetFromID, eclassifier_impl.go:187-204 *)
Definition EClassifier_isSet : list (Z * isSet_case) :=
  [(ECLASSIFIER__CLASSIFIER_ID, IField "classifierID" (LInt (-1)));
   (ECLASSIFIER__DEFAULT_VALUE, ICall "GetDefaultValue" (LNil));
   (ECLASSIFIER__EPACKAGE, ICall "GetEPackage" (LNil));
   (ECLASSIFIER__INSTANCE_CLASS, IField "instanceClass" (LNil));
   (ECLASSIFIER__INSTANCE_CLASS_NAME, IField "instanceClassName" (LStr ""));
   (ECLASSIFIER__INSTANCE_TYPE_NAME, ICall "GetInstanceTypeName" (LStr ""))].
(** EBasicInverseAdd, eclassifier_impl.go:215-226 *)
Definition EClassifier_add : list (Z * add_case) :=
  [(ECLASSIFIER__EPACKAGE, AContainer (BContainer ECLASSIFIER__EPACKAGE))].
(** EBasicInverseRemove, eclassifier_impl.go:228-235 *)
Definition EClassifier_remove : list (Z * remove_case) :=
  [(ECLASSIFIER__EPACKAGE, RmBasic (BContainer ECLASSIFIER__EPACKAGE))].
Definition EClassifier_getters : list (string * getter) :=
  [("GetClassifierID", MLazyInt "classifierID" "initClassifierID") (* 67-72 *);
   ("GetDefaultValue", MPanic) (* 84-86 *);
   ("GetEPackage", MContainer ECLASSIFIER__EPACKAGE) (* 89-94 *);
   ("GetInstanceClass", MField "instanceClass") (* 97-99 *);
   ("GetInstanceClassName", MField "instanceClassName") (* 111-113 *);
   ("GetInstanceTypeName", MPanic) (* 125-127 *)].
Definition EClassifier_setters : list (string * setter) :=
  [("SetClassifierID", TField "classifierID" ECLASSIFIER__CLASSIFIER_ID) (* 75-81 *);
   ("SetInstanceClass", TField "instanceClass" ECLASSIFIER__INSTANCE_CLASS) (* 102-108 *);
   ("SetInstanceClassName", TField "instanceClassName" ECLASSIFIER__INSTANCE_CLASS_NAME) (* 116-122 *);
   ("SetInstanceTypeName", TPanic) (* 130-132 *)].
Definition EClassifier_basics : list (string * basic) := [].
Definition EClassifier_unsetters : list (string * unsetter) := [].
Definition EClassifier_inits : list (string * new_value) :=
  [("initClassifierID", NInt (-1)) (* 134-136 *)].
(** Initialize, eclassifier_impl.go:37-43 *)
Definition EClassifier_initialize : list (string * literal) := [("classifierID", LInt (-1)); ("instanceClass", LNil); ("instanceClassName", LStr "")].
Definition EClassifier_class : class := Class EClassifier_embeds EClassifier_static EClassifier_get EClassifier_set EClassifier_unset EClassifier_isSet EClassifier_add EClassifier_remove
  EClassifier_getters EClassifier_setters EClassifier_basics EClassifier_unsetters EClassifier_inits EClassifier_initialize.

(** *** EDataType, edatatype_impl.go *)
Definition EDataType_embeds : option nat := Some cEClassifier. (* embeds EClassifierExt *)
(** EStaticClass, EStaticFeatureCount, edatatype_impl.go:38-44 *)
Definition EDataType_static : nat * Z := (cEDataType, EDATA_TYPE_FEATURE_COUNT).
(** EGetFromID, edatatype_impl.go:60-67 *)
Definition EDataType_get : list (Z * get_case) :=
  [(EDATA_TYPE__SERIALIZABLE, GCall "IsSerializable")].
(** ESetFromID, edatatype_impl.go:69-76 *)
Definition EDataType_set : list (Z * set_case) :=
  [(EDATA_TYPE__SERIALIZABLE, SCall "SetSerializable" "bool")].
(** EUnsetFromID, edatatype_impl.go:78-85 *)
Definition EDataType_unset : list (Z * unset_case) :=
  [(EDATA_TYPE__SERIALIZABLE, UCall "SetSerializable" (LBool true))].
(** EIsSetFromID, edatatype_impl.go:87-94 *)
Definition EDataType_isSet : list (Z * isSet_case) :=
  [(EDATA_TYPE__SERIALIZABLE, IField "isSerializable" (LBool true))].
Definition EDataType_add : list (Z * add_case) := [].
Definition EDataType_remove : list (Z * remove_case) := [].
Definition EDataType_getters : list (string * getter) :=
  [("IsSerializable", MField "isSerializable") (* 47-49 *)].
Definition EDataType_setters : list (string * setter) :=
  [("SetSerializable", TField "isSerializable" EDATA_TYPE__SERIALIZABLE) (* 52-58 *)].
Definition EDataType_basics : list (string * basic) := [].
Definition EDataType_unsetters : list (string * unsetter) := [].
Definition EDataType_inits : list (string * new_value) := [].
(** Initialize, edatatype_impl.go:28-32 *)
Definition EDataType_initialize : list (string * literal) := [("isSerializable", LBool true)].
Definition EDataType_class : class := Class EDataType_embeds EDataType_static EDataType_get EDataType_set EDataType_unset EDataType_isSet EDataType_add EDataType_remove
  EDataType_getters EDataType_setters EDataType_basics EDataType_unsetters EDataType_inits EDataType_initialize.

(** *** EEnum, eenum_impl.go *)
Definition EEnum_embeds : option nat := Some cEDataType. (* embeds EDataTypeExt *)
(** EStaticClass, EStaticFeatureCount, eenum_impl.go:44-50 *)
Definition EEnum_static : nat * Z := (cEEnum, EENUM_FEATURE_COUNT).
(** EGetFromID, eenum_impl.go:79-86 *)
Definition EEnum_get : list (Z * get_case) :=
  [(EENUM__ELITERALS, GCall "GetELiterals")].
(** ESetFromID, eenum_impl.go:88-97 *)
Definition EEnum_set : list (Z * set_case) :=
  [(EENUM__ELITERALS, SList "GetELiterals")].
(** EUnsetFromID, eenum_impl.go:99-106 *)
Definition EEnum_unset : list (Z * unset_case) :=
  [(EENUM__ELITERALS, UClear "GetELiterals")].
(** EIsSetFromID, eenum_impl.go:108-115 *)
Definition EEnum_isSet : list (Z * isSet_case) :=
  [(EENUM__ELITERALS, IList "eLiterals")].
(** EBasicInverseAdd, eenum_impl.go:130-138 *)
Definition EEnum_add : list (Z * add_case) :=
  [(EENUM__ELITERALS, AList "GetELiterals")].
(** EBasicInverseRemove, eenum_impl.go:140-148 *)
Definition EEnum_remove : list (Z * remove_case) :=
  [(EENUM__ELITERALS, RmList "GetELiterals")].
Definition EEnum_getters : list (string * getter) :=
  [("GetELiterals", MLazy "eLiterals" "initELiterals") (* 68-73 *)].
Definition EEnum_setters : list (string * setter) := [].
Definition EEnum_basics : list (string * basic) := [].
Definition EEnum_unsetters : list (string * unsetter) := [].
Definition EEnum_inits : list (string * new_value) :=
  [("initELiterals", NList "" EENUM__ELITERALS (EENUM_LITERAL__EENUM) true true true false false) (* 75-77 *)].
(** Initialize, eenum_impl.go:31-34 *)
Definition EEnum_initialize : list (string * literal) := [].
Definition EEnum_class : class := Class EEnum_embeds EEnum_static EEnum_get EEnum_set EEnum_unset EEnum_isSet EEnum_add EEnum_remove
  EEnum_getters EEnum_setters EEnum_basics EEnum_unsetters EEnum_inits EEnum_initialize.

(** *** EEnumLiteral, eenumliteral_impl.go *)
Definition EEnumLiteral_embeds : option nat := Some cENamedElement. (* embeds ENamedElementImpl *)
(** EStaticClass, EStaticFeatureCount, eenumliteral_impl.go:42-48 *)
Definition EEnumLiteral_static : nat * Z := (cEEnumLiteral, EENUM_LITERAL_FEATURE_COUNT).
(** EGetFromID, eenumliteral_impl.go:100-113 *)
Definition EEnumLiteral_get : list (Z * get_case) :=
  [(EENUM_LITERAL__EENUM, GCall "GetEEnum");
   (EENUM_LITERAL__INSTANCE, GCall "GetInstance");
   (EENUM_LITERAL__LITERAL, GCall "GetLiteral");
   (EENUM_LITERAL__VALUE, GCall "GetValue")].
(** ESetFromID, eenumliteral_impl.go:115-126 *)
Definition EEnumLiteral_set : list (Z * set_case) :=
  [(EENUM_LITERAL__INSTANCE, SCall "SetInstance" "any");
   (EENUM_LITERAL__LITERAL, SCall "SetLiteral" "string");
   (EENUM_LITERAL__VALUE, SCall "SetValue" "int")].
(** EUnsetFromID, eenumliteral_impl.go:128-139 *)
Definition EEnumLiteral_unset : list (Z * unset_case) :=
  [(EENUM_LITERAL__INSTANCE, UCall "SetInstance" (LNil));
   (EENUM_LITERAL__LITERAL, UCall "SetLiteral" (LStr ""));
   (EENUM_LITERAL__VALUE, UCall "SetValue" (LInt (0)))].
(** EIsSetFromID, eenumliteral_impl.go:141-154 *)
Definition EEnumLiteral_isSet : list (Z * isSet_case) :=
  [(EENUM_LITERAL__EENUM, ICall "GetEEnum" (LNil));
   (EENUM_LITERAL__INSTANCE, IField "instance" (LNil));
   (EENUM_LITERAL__LITERAL, IField "literal" (LStr ""));
   (EENUM_LITERAL__VALUE, IField "value" (LInt (0)))].
(** EBasicInverseAdd, eenumliteral_impl.go:156-167 *)
Definition EEnumLiteral_add : list (Z * add_case) :=
  [(EENUM_LITERAL__EENUM, AContainer (BContainer EENUM_LITERAL__EENUM))].
(** EBasicInverseRemove, eenumliteral_impl.go:169-176 *)
Definition EEnumLiteral_remove : list (Z * remove_case) :=
  [(EENUM_LITERAL__EENUM, RmBasic (BContainer EENUM_LITERAL__EENUM))].
Definition EEnumLiteral_getters : list (string * getter) :=
  [("GetEEnum", MContainer EENUM_LITERAL__EENUM) (* 51-56 *);
   ("GetInstance", MField "instance") (* 59-61 *);
   ("GetLiteral", MField "literal") (* 73-75 *);
   ("GetValue", MField "value") (* 87-89 *)].
Definition EEnumLiteral_setters : list (string * setter) :=
  [("SetInstance", TField "instance" EENUM_LITERAL__INSTANCE) (* 64-70 *);
   ("SetLiteral", TField "literal" EENUM_LITERAL__LITERAL) (* 78-84 *);
   ("SetValue", TField "value" EENUM_LITERAL__VALUE) (* 92-98 *)].
Definition EEnumLiteral_basics : list (string * basic) := [].
Definition EEnumLiteral_unsetters : list (string * unsetter) := [].
Definition EEnumLiteral_inits : list (string * new_value) := [].
(** Initialize, eenumliteral_impl.go:30-36 *)
Definition EEnumLiteral_initialize : list (string * literal) := [("instance", LNil); ("literal", LStr ""); ("value", LInt (0))].
Definition EEnumLiteral_class : class := Class EEnumLiteral_embeds EEnumLiteral_static EEnumLiteral_get EEnumLiteral_set EEnumLiteral_unset EEnumLiteral_isSet EEnumLiteral_add EEnumLiteral_remove
  EEnumLiteral_getters EEnumLiteral_setters EEnumLiteral_basics EEnumLiteral_unsetters EEnumLiteral_inits EEnumLiteral_initialize.

(** *** EFactory, efactory_impl.go *)
Definition EFactory_embeds : option nat := Some cEModelElement. (* embeds EModelElementExt *)
(** EStaticClass, EStaticFeatureCount, efactory_impl.go:39-45 *)
Definition EFactory_static : nat * Z := (cEFactory, EFACTORY_FEATURE_COUNT).
(** EGetFromID, efactory_impl.go:93-100 *)
Definition EFactory_get : list (Z * get_case) :=
  [(EFACTORY__EPACKAGE, GCall "GetEPackage")].
(** ESetFromID, efactory_impl.go:102-110 *)
Definition EFactory_set : list (Z * set_case) :=
  [(EFACTORY__EPACKAGE, SCallOrNil "SetEPackage" "EPackage")].
(** EUnsetFromID, efactory_impl.go:112-119 *)
Definition EFactory_unset : list (Z * unset_case) :=
  [(EFACTORY__EPACKAGE, UCall "SetEPackage" (LNil))].
(** EIsSetFromID, efactory_impl.go:121-128 *)
Definition EFactory_isSet : list (Z * isSet_case) :=
  [(EFACTORY__EPACKAGE, ICall "GetEPackage" (LNil))].
(** EBasicInverseAdd, efactory_impl.go:143-154 *)
Definition EFactory_add : list (Z * add_case) :=
  [(EFACTORY__EPACKAGE, AContainer (BCall "basicSetEPackage"))].
(** EBasicInverseRemove, efactory_impl.go:156-163 *)
Definition EFactory_remove : list (Z * remove_case) :=
  [(EFACTORY__EPACKAGE, RmBasic (BCall "basicSetEPackage"))].
Definition EFactory_getters : list (string * getter) :=
  [("GetEPackage", MContainer EFACTORY__EPACKAGE) (* 63-68 *)].
Definition EFactory_setters : list (string * setter) :=
  [("SetEPackage", TContainer EFACTORY__EPACKAGE EPACKAGE__EFACTORY_INSTANCE (BCall "basicSetEPackage")) (* 71-87 *)].
Definition EFactory_basics : list (string * basic) :=
  [("basicSetEPackage", BContainer EFACTORY__EPACKAGE) (* 89-91 *)].
Definition EFactory_unsetters : list (string * unsetter) := [].
Definition EFactory_inits : list (string * new_value) := [].
(** no Initialize of its own *)
Definition EFactory_initialize : list (string * literal) := [].
Definition EFactory_class : class := Class EFactory_embeds EFactory_static EFactory_get EFactory_set EFactory_unset EFactory_isSet EFactory_add EFactory_remove
  EFactory_getters EFactory_setters EFactory_basics EFactory_unsetters EFactory_inits EFactory_initialize.

(** *** EGenericType, egenerictype_impl.go *)
Definition EGenericType_embeds : option nat := None. (* embeds CompactEObjectContainer *)
(** EStaticClass, EStaticFeatureCount, egenerictype_impl.go:60-66 *)
Definition EGenericType_static : nat * Z := (cEGenericType, EGENERIC_TYPE_FEATURE_COUNT).
(** EGetFromID, egenerictype_impl.go:220-243 *)
Definition EGenericType_get : list (Z * get_case) :=
  [(EGENERIC_TYPE__ECLASSIFIER, GResolve "GetEClassifier");
   (EGENERIC_TYPE__ELOWER_BOUND, GCall "GetELowerBound");
   (EGENERIC_TYPE__ERAW_TYPE, GResolve "GetERawType");
   (EGENERIC_TYPE__ETYPE_ARGUMENTS, GCall "GetETypeArguments");
   (EGENERIC_TYPE__ETYPE_PARAMETER, GCall "GetETypeParameter");
   (EGENERIC_TYPE__EUPPER_BOUND, GCall "GetEUpperBound")].
(** ESetFromID, egenerictype_impl.go:245-266 *)
Definition EGenericType_set : list (Z * set_case) :=
  [(EGENERIC_TYPE__ECLASSIFIER, SCallOrNil "SetEClassifier" "EClassifier");
   (EGENERIC_TYPE__ELOWER_BOUND, SCallOrNil "SetELowerBound" "EGenericType");
   (EGENERIC_TYPE__ETYPE_ARGUMENTS, SList "GetETypeArguments");
   (EGENERIC_TYPE__ETYPE_PARAMETER, SCallOrNil "SetETypeParameter" "ETypeParameter");
   (EGENERIC_TYPE__EUPPER_BOUND, SCallOrNil "SetEUpperBound" "EGenericType")].
(** EUnsetFromID, egenerictype_impl.go:268-283 *)
Definition EGenericType_unset : list (Z * unset_case) :=
  [(EGENERIC_TYPE__ECLASSIFIER, UCall "SetEClassifier" (LNil));
   (EGENERIC_TYPE__ELOWER_BOUND, UCall "SetELowerBound" (LNil));
   (EGENERIC_TYPE__ETYPE_ARGUMENTS, UClear "GetETypeArguments");
   (EGENERIC_TYPE__ETYPE_PARAMETER, UCall "SetETypeParameter" (LNil));
   (EGENERIC_TYPE__EUPPER_BOUND, UCall "SetEUpperBound" (LNil))].
(** EIsSetFromID, egenerictype_impl.go:285-302 *)
Definition EGenericType_isSet : list (Z * isSet_case) :=
  [(EGENERIC_TYPE__ECLASSIFIER, IField "eClassifier" (LNil));
   (EGENERIC_TYPE__ELOWER_BOUND, IField "eLowerBound" (LNil));
   (EGENERIC_TYPE__ERAW_TYPE, IField "eRawType" (LNil));
   (EGENERIC_TYPE__ETYPE_ARGUMENTS, IList "eTypeArguments");
   (EGENERIC_TYPE__ETYPE_PARAMETER, IField "eTypeParameter" (LNil));
   (EGENERIC_TYPE__EUPPER_BOUND, IField "eUpperBound" (LNil))].
Definition EGenericType_add : list (Z * add_case) := [].
(** EBasicInverseRemove, egenerictype_impl.go:313-325 *)
Definition EGenericType_remove : list (Z * remove_case) :=
  [(EGENERIC_TYPE__ELOWER_BOUND, RmBasic (BCall "basicSetELowerBound"));
   (EGENERIC_TYPE__ETYPE_ARGUMENTS, RmList "GetETypeArguments");
   (EGENERIC_TYPE__EUPPER_BOUND, RmBasic (BCall "basicSetEUpperBound"))].
Definition EGenericType_getters : list (string * getter) :=
  [("GetEClassifier", MResolved "eClassifier") (* 74-86 *);
   ("basicGetEClassifier", MField "eClassifier") (* 88-90 *);
   ("GetELowerBound", MField "eLowerBound") (* 102-104 *);
   ("GetERawType", MResolved "eRawType") (* 139-151 *);
   ("basicGetERawType", MField "eRawType") (* 153-155 *);
   ("GetETypeArguments", MLazy "eTypeArguments" "initETypeArguments") (* 158-163 *);
   ("GetETypeParameter", MField "eTypeParameter") (* 166-168 *);
   ("GetEUpperBound", MField "eUpperBound") (* 180-182 *)].
Definition EGenericType_setters : list (string * setter) :=
  [("SetEClassifier", TField "eClassifier" EGENERIC_TYPE__ECLASSIFIER) (* 93-99 *);
   ("SetELowerBound", TContained "eLowerBound" (EOPPOSITE_FEATURE_BASE - EGENERIC_TYPE__ELOWER_BOUND) (EOPPOSITE_FEATURE_BASE - EGENERIC_TYPE__ELOWER_BOUND) (BCall "basicSetELowerBound")) (* 107-121 *);
   ("SetETypeParameter", TField "eTypeParameter" EGENERIC_TYPE__ETYPE_PARAMETER) (* 171-177 *);
   ("SetEUpperBound", TContained "eUpperBound" (EOPPOSITE_FEATURE_BASE - EGENERIC_TYPE__EUPPER_BOUND) (EOPPOSITE_FEATURE_BASE - EGENERIC_TYPE__EUPPER_BOUND) (BCall "basicSetEUpperBound")) (* 185-199 *)].
Definition EGenericType_basics : list (string * basic) :=
  [("basicSetELowerBound", BField "eLowerBound" EGENERIC_TYPE__ELOWER_BOUND) (* 123-136 *);
   ("basicSetEUpperBound", BField "eUpperBound" EGENERIC_TYPE__EUPPER_BOUND) (* 201-214 *)].
Definition EGenericType_unsetters : list (string * unsetter) := [].
Definition EGenericType_inits : list (string * new_value) :=
  [("initETypeArguments", NList "" EGENERIC_TYPE__ETYPE_ARGUMENTS (-1) true true false false false) (* 216-218 *)].
(** Initialize, egenerictype_impl.go:43-46 *)
Definition EGenericType_initialize : list (string * literal) := [].
Definition EGenericType_class : class := Class EGenericType_embeds EGenericType_static EGenericType_get EGenericType_set EGenericType_unset EGenericType_isSet EGenericType_add EGenericType_remove
  EGenericType_getters EGenericType_setters EGenericType_basics EGenericType_unsetters EGenericType_inits EGenericType_initialize.

(** *** EModelElement, emodelelement_impl.go *)
Definition EModelElement_embeds : option nat := None. (* embeds CompactEObjectContainer *)
(** EStaticClass, EStaticFeatureCount, emodelelement_impl.go:44-50 *)
Definition EModelElement_static : nat * Z := (cEModelElement, EMODEL_ELEMENT_FEATURE_COUNT).
(** EGetFromID, emodelelement_impl.go:69-76 *)
Definition EModelElement_get : list (Z * get_case) :=
  [(EMODEL_ELEMENT__EANNOTATIONS, GCall "GetEAnnotations")].
(** ESetFromID, emodelelement_impl.go:78-87 *)
Definition EModelElement_set : list (Z * set_case) :=
  [(EMODEL_ELEMENT__EANNOTATIONS, SList "GetEAnnotations")].
(** EUnsetFromID, emodelelement_impl.go:89-96 *)
Definition EModelElement_unset : list (Z * unset_case) :=
  [(EMODEL_ELEMENT__EANNOTATIONS, UClear "GetEAnnotations")].
(** EIsSetFromID, emodelelement_impl.go:98-105 *)
Definition EModelElement_isSet : list (Z * isSet_case) :=
  [(EMODEL_ELEMENT__EANNOTATIONS, IList "eAnnotations")].
(** EBasicInverseAdd, emodelelement_impl.go:116-124 *)
Definition EModelElement_add : list (Z * add_case) :=
  [(EMODEL_ELEMENT__EANNOTATIONS, AList "GetEAnnotations")].
(** EBasicInverseRemove, emodelelement_impl.go:126-134 *)
Definition EModelElement_remove : list (Z * remove_case) :=
  [(EMODEL_ELEMENT__EANNOTATIONS, RmList "GetEAnnotations")].
Definition EModelElement_getters : list (string * getter) :=
  [("GetEAnnotations", MLazy "eAnnotations" "initEAnnotations") (* 58-63 *)].
Definition EModelElement_setters : list (string * setter) := [].
Definition EModelElement_basics : list (string * basic) := [].
Definition EModelElement_unsetters : list (string * unsetter) := [].
Definition EModelElement_inits : list (string * new_value) :=
  [("initEAnnotations", NList "" EMODEL_ELEMENT__EANNOTATIONS (EANNOTATION__EMODEL_ELEMENT) true true true false false) (* 65-67 *)].
(** Initialize, emodelelement_impl.go:31-34 *)
Definition EModelElement_initialize : list (string * literal) := [].
Definition EModelElement_class : class := Class EModelElement_embeds EModelElement_static EModelElement_get EModelElement_set EModelElement_unset EModelElement_isSet EModelElement_add EModelElement_remove
  EModelElement_getters EModelElement_setters EModelElement_basics EModelElement_unsetters EModelElement_inits EModelElement_initialize.

(** *** ENamedElement, enamedelement_impl.go *)
Definition ENamedElement_embeds : option nat := Some cEModelElement. (* embeds EModelElementExt *)
(** EStaticClass, EStaticFeatureCount, enamedelement_impl.go:38-44 *)
Definition ENamedElement_static : nat * Z := (cENamedElement, ENAMED_ELEMENT_FEATURE_COUNT).
(** EGetFromID, enamedelement_impl.go:60-67 *)
Definition ENamedElement_get : list (Z * get_case) :=
  [(ENAMED_ELEMENT__NAME, GCall "GetName")].
(** ESetFromID, enamedelement_impl.go:69-76 *)
Definition ENamedElement_set : list (Z * set_case) :=
  [(ENAMED_ELEMENT__NAME, SCall "SetName" "string")].
(** EUnsetFromID, enamedelement_impl.go:78-85 *)
Definition ENamedElement_unset : list (Z * unset_case) :=
  [(ENAMED_ELEMENT__NAME, UCall "SetName" (LStr ""))].
(** EIsSetFromID, enamedelement_impl.go:87-94 *)
Definition ENamedElement_isSet : list (Z * isSet_case) :=
  [(ENAMED_ELEMENT__NAME, IField "name" (LStr ""))].
Definition ENamedElement_add : list (Z * add_case) := [].
Definition ENamedElement_remove : list (Z * remove_case) := [].
Definition ENamedElement_getters : list (string * getter) :=
  [("GetName", MField "name") (* 47-49 *)].
Definition ENamedElement_setters : list (string * setter) :=
  [("SetName", TField "name" ENAMED_ELEMENT__NAME) (* 52-58 *)].
Definition ENamedElement_basics : list (string * basic) := [].
Definition ENamedElement_unsetters : list (string * unsetter) := [].
Definition ENamedElement_inits : list (string * new_value) := [].
(** Initialize, enamedelement_impl.go:28-32 *)
Definition ENamedElement_initialize : list (string * literal) := [("name", LStr "")].
Definition ENamedElement_class : class := Class ENamedElement_embeds ENamedElement_static ENamedElement_get ENamedElement_set ENamedElement_unset ENamedElement_isSet ENamedElement_add ENamedElement_remove
  ENamedElement_getters ENamedElement_setters ENamedElement_basics ENamedElement_unsetters ENamedElement_inits ENamedElement_initialize.

(** *** EOperation, eoperation_impl.go *)
Definition EOperation_embeds : option nat := Some cETypedElement. (* embeds ETypedElementExt *)
(** EStaticClass, EStaticFeatureCount, eoperation_impl.go:48-54 *)
Definition EOperation_static : nat * Z := (cEOperation, EOPERATION_FEATURE_COUNT).
(** EGetFromID, eoperation_impl.go:114-133 *)
Definition EOperation_get : list (Z * get_case) :=
  [(EOPERATION__ECONTAINING_CLASS, GCall "GetEContainingClass");
   (EOPERATION__EEXCEPTIONS, GListUnres "GetEExceptions");
   (EOPERATION__EPARAMETERS, GCall "GetEParameters");
   (EOPERATION__OPERATION_ID, GCall "GetOperationID")].
(** ESetFromID, eoperation_impl.go:135-150 *)
Definition EOperation_set : list (Z * set_case) :=
  [(EOPERATION__EEXCEPTIONS, SList "GetEExceptions");
   (EOPERATION__EPARAMETERS, SList "GetEParameters");
   (EOPERATION__OPERATION_ID, SCall "SetOperationID" "int")].
(** EUnsetFromID, eoperation_impl.go:152-163 *)
Definition EOperation_unset : list (Z * unset_case) :=
  [(EOPERATION__EEXCEPTIONS, UUnset "UnsetEExceptions");
   (EOPERATION__EPARAMETERS, UClear "GetEParameters");
   (EOPERATION__OPERATION_ID, UCall "SetOperationID" (LInt (-1)))].
(** EIsSetFromID, eoperation_impl.go:165-178 *)
Definition EOperation_isSet : list (Z * isSet_case) :=
  [(EOPERATION__ECONTAINING_CLASS, ICall "GetEContainingClass" (LNil));
   (EOPERATION__EEXCEPTIONS, IList "eExceptions");
   (EOPERATION__EPARAMETERS, IList "eParameters");
   (EOPERATION__OPERATION_ID, IField "operationID" (LInt (-1)))].
(** EBasicInverseAdd, eoperation_impl.go:189-203 *)
Definition EOperation_add : list (Z * add_case) :=
  [(EOPERATION__ECONTAINING_CLASS, AContainer (BContainer EOPERATION__ECONTAINING_CLASS));
   (EOPERATION__EPARAMETERS, AList "GetEParameters")].
(** EBasicInverseRemove, eoperation_impl.go:205-215 *)
Definition EOperation_remove : list (Z * remove_case) :=
  [(EOPERATION__ECONTAINING_CLASS, RmBasic (BContainer EOPERATION__ECONTAINING_CLASS));
   (EOPERATION__EPARAMETERS, RmList "GetEParameters")].
Definition EOperation_getters : list (string * getter) :=
  [("GetEContainingClass", MContainer EOPERATION__ECONTAINING_CLASS) (* 62-67 *);
   ("GetEExceptions", MLazy "eExceptions" "initEExceptions") (* 70-75 *);
   ("GetEParameters", MLazy "eParameters" "initEParameters") (* 85-90 *);
   ("GetOperationID", MField "operationID") (* 93-95 *)].
Definition EOperation_setters : list (string * setter) :=
  [("SetOperationID", TField "operationID" EOPERATION__OPERATION_ID) (* 98-104 *)].
Definition EOperation_basics : list (string * basic) := [].
Definition EOperation_unsetters : list (string * unsetter) :=
  [("UnsetEExceptions", WClear "eExceptions") (* 78-82 *)].
Definition EOperation_inits : list (string * new_value) :=
  [("initEExceptions", NList "" EOPERATION__EEXCEPTIONS (-1) false false false true true) (* 106-108 *);
   ("initEParameters", NList "" EOPERATION__EPARAMETERS (EPARAMETER__EOPERATION) true true true false false) (* 110-112 *)].
(** Initialize, eoperation_impl.go:34-38 *)
Definition EOperation_initialize : list (string * literal) := [("operationID", LInt (-1))].
Definition EOperation_class : class := Class EOperation_embeds EOperation_static EOperation_get EOperation_set EOperation_unset EOperation_isSet EOperation_add EOperation_remove
  EOperation_getters EOperation_setters EOperation_basics EOperation_unsetters EOperation_inits EOperation_initialize.

(** *** EPackage, epackage_impl.go *)
Definition EPackage_embeds : option nat := Some cENamedElement. (* embeds ENamedElementImpl *)
(** EStaticClass, EStaticFeatureCount, epackage_impl.go:59-65 *)
Definition EPackage_static : nat * Z := (cEPackage, EPACKAGE_FEATURE_COUNT).
(** EGetFromID, epackage_impl.go:169-186 *)
Definition EPackage_get : list (Z * get_case) :=
  [(EPACKAGE__ECLASSIFIERS, GCall "GetEClassifiers");
   (EPACKAGE__EFACTORY_INSTANCE, GCall "GetEFactoryInstance");
   (EPACKAGE__ESUB_PACKAGES, GCall "GetESubPackages");
   (EPACKAGE__ESUPER_PACKAGE, GCall "GetESuperPackage");
   (EPACKAGE__NS_PREFIX, GCall "GetNsPrefix");
   (EPACKAGE__NS_URI, GCall "GetNsURI")].
(** ESetFromID, epackage_impl.go:188-208 *)
Definition EPackage_set : list (Z * set_case) :=
  [(EPACKAGE__ECLASSIFIERS, SList "GetEClassifiers");
   (EPACKAGE__EFACTORY_INSTANCE, SCallOrNil "SetEFactoryInstance" "EFactory");
   (EPACKAGE__ESUB_PACKAGES, SList "GetESubPackages");
   (EPACKAGE__NS_PREFIX, SCall "SetNsPrefix" "string");
   (EPACKAGE__NS_URI, SCall "SetNsURI" "string")].
(** EUnsetFromID, epackage_impl.go:210-225 *)
Definition EPackage_unset : list (Z * unset_case) :=
  [(EPACKAGE__ECLASSIFIERS, UClear "GetEClassifiers");
   (EPACKAGE__EFACTORY_INSTANCE, UCall "SetEFactoryInstance" (LNil));
   (EPACKAGE__ESUB_PACKAGES, UClear "GetESubPackages");
   (EPACKAGE__NS_PREFIX, UCall "SetNsPrefix" (LStr ""));
   (EPACKAGE__NS_URI, UCall "SetNsURI" (LStr ""))].
(** EIsSetFromID, epackage_impl.go:227-244 *)
Definition EPackage_isSet : list (Z * isSet_case) :=
  [(EPACKAGE__ECLASSIFIERS, IList "eClassifiers");
   (EPACKAGE__EFACTORY_INSTANCE, IField "eFactoryInstance" (LNil));
   (EPACKAGE__ESUB_PACKAGES, IList "eSubPackages");
   (EPACKAGE__ESUPER_PACKAGE, ICall "GetESuperPackage" (LNil));
   (EPACKAGE__NS_PREFIX, IField "nsPrefix" (LStr ""));
   (EPACKAGE__NS_URI, IField "nsURI" (LStr ""))].
(** EBasicInverseAdd, epackage_impl.go:255-279 *)
Definition EPackage_add : list (Z * add_case) :=
  [(EPACKAGE__ECLASSIFIERS, AList "GetEClassifiers");
   (EPACKAGE__EFACTORY_INSTANCE, ASingle "eFactoryInstance" (EOPPOSITE_FEATURE_BASE - EPACKAGE__EFACTORY_INSTANCE) (BCall "basicSetEFactoryInstance"));
   (EPACKAGE__ESUB_PACKAGES, AList "GetESubPackages");
   (EPACKAGE__ESUPER_PACKAGE, AContainer (BContainer EPACKAGE__ESUPER_PACKAGE))].
(** EBasicInverseRemove, epackage_impl.go:281-296 *)
Definition EPackage_remove : list (Z * remove_case) :=
  [(EPACKAGE__ECLASSIFIERS, RmList "GetEClassifiers");
   (EPACKAGE__EFACTORY_INSTANCE, RmBasic (BCall "basicSetEFactoryInstance"));
   (EPACKAGE__ESUB_PACKAGES, RmList "GetESubPackages");
   (EPACKAGE__ESUPER_PACKAGE, RmBasic (BContainer EPACKAGE__ESUPER_PACKAGE))].
Definition EPackage_getters : list (string * getter) :=
  [("GetEClassifiers", MLazy "eClassifiers" "initEClassifiers") (* 73-78 *);
   ("GetEFactoryInstance", MField "eFactoryInstance") (* 81-83 *);
   ("GetESubPackages", MLazy "eSubPackages" "initESubPackages") (* 118-123 *);
   ("GetESuperPackage", MContainer EPACKAGE__ESUPER_PACKAGE) (* 126-131 *);
   ("GetNsPrefix", MField "nsPrefix") (* 134-136 *);
   ("GetNsURI", MField "nsURI") (* 148-150 *)].
Definition EPackage_setters : list (string * setter) :=
  [("SetEFactoryInstance", TContained "eFactoryInstance" (EFACTORY__EPACKAGE) (EFACTORY__EPACKAGE) (BCall "basicSetEFactoryInstance")) (* 86-100 *);
   ("SetNsPrefix", TField "nsPrefix" EPACKAGE__NS_PREFIX) (* 139-145 *);
   ("SetNsURI", TField "nsURI" EPACKAGE__NS_URI) (* 153-159 *)].
Definition EPackage_basics : list (string * basic) :=
  [("basicSetEFactoryInstance", BField "eFactoryInstance" EPACKAGE__EFACTORY_INSTANCE) (* 102-115 *)].
Definition EPackage_unsetters : list (string * unsetter) := [].
Definition EPackage_inits : list (string * new_value) :=
  [("initEClassifiers", NList "" EPACKAGE__ECLASSIFIERS (ECLASSIFIER__EPACKAGE) true true true false false) (* 161-163 *);
   ("initESubPackages", NList "" EPACKAGE__ESUB_PACKAGES (EPACKAGE__ESUPER_PACKAGE) true true true false false) (* 165-167 *)].
(** Initialize, epackage_impl.go:40-45 *)
Definition EPackage_initialize : list (string * literal) := [("nsPrefix", LStr ""); ("nsURI", LStr "")].
Definition EPackage_class : class := Class EPackage_embeds EPackage_static EPackage_get EPackage_set EPackage_unset EPackage_isSet EPackage_add EPackage_remove
  EPackage_getters EPackage_setters EPackage_basics EPackage_unsetters EPackage_inits EPackage_initialize.

(** *** EParameter, eparameter_impl.go *)
Definition EParameter_embeds : option nat := Some cETypedElement. (* embeds ETypedElementExt *)
(** EStaticClass, EStaticFeatureCount, eparameter_impl.go:31-37 *)
Definition EParameter_static : nat * Z := (cEParameter, EPARAMETER_FEATURE_COUNT).
(** EGetFromID, eparameter_impl.go:47-54 *)
Definition EParameter_get : list (Z * get_case) :=
  [(EPARAMETER__EOPERATION, GCall "GetEOperation")].
Definition EParameter_set : list (Z * set_case) := [].
Definition EParameter_unset : list (Z * unset_case) := [].
(** EIsSetFromID, eparameter_impl.go:56-63 *)
Definition EParameter_isSet : list (Z * isSet_case) :=
  [(EPARAMETER__EOPERATION, ICall "GetEOperation" (LNil))].
(** EBasicInverseAdd, eparameter_impl.go:65-76 *)
Definition EParameter_add : list (Z * add_case) :=
  [(EPARAMETER__EOPERATION, AContainer (BContainer EPARAMETER__EOPERATION))].
(** EBasicInverseRemove, eparameter_impl.go:78-85 *)
Definition EParameter_remove : list (Z * remove_case) :=
  [(EPARAMETER__EOPERATION, RmBasic (BContainer EPARAMETER__EOPERATION))].
Definition EParameter_getters : list (string * getter) :=
  [("GetEOperation", MContainer EPARAMETER__EOPERATION) (* 40-45 *)].
Definition EParameter_setters : list (string * setter) := [].
Definition EParameter_basics : list (string * basic) := [].
Definition EParameter_unsetters : list (string * unsetter) := [].
Definition EParameter_inits : list (string * new_value) := [].
(** no Initialize of its own *)
Definition EParameter_initialize : list (string * literal) := [].
Definition EParameter_class : class := Class EParameter_embeds EParameter_static EParameter_get EParameter_set EParameter_unset EParameter_isSet EParameter_add EParameter_remove
  EParameter_getters EParameter_setters EParameter_basics EParameter_unsetters EParameter_inits EParameter_initialize.

(** *** EReference, ereference_impl.go *)
Definition EReference_embeds : option nat := Some cEStructuralFeature. (* embeds EStructuralFeatureExt *)
(** EStaticClass, EStaticFeatureCount, ereference_impl.go:58-64 *)
Definition EReference_static : nat * Z := (cEReference, EREFERENCE_FEATURE_COUNT).
(** EGetFromID, ereference_impl.go:148-177 *)
Definition EReference_get : list (Z * get_case) :=
  [(EREFERENCE__CONTAINER, GCall "IsContainer");
   (EREFERENCE__CONTAINMENT, GCall "IsContainment");
   (EREFERENCE__EKEYS, GListUnres "GetEKeys");
   (EREFERENCE__EOPPOSITE, GResolve "GetEOpposite");
   (EREFERENCE__EREFERENCE_TYPE, GResolve "GetEReferenceType");
   (EREFERENCE__RESOLVE_PROXIES, GCall "IsResolveProxies")].
(** ESetFromID, ereference_impl.go:179-195 *)
Definition EReference_set : list (Z * set_case) :=
  [(EREFERENCE__CONTAINMENT, SCall "SetContainment" "bool");
   (EREFERENCE__EKEYS, SList "GetEKeys");
   (EREFERENCE__EOPPOSITE, SCallOrNil "SetEOpposite" "EReference");
   (EREFERENCE__RESOLVE_PROXIES, SCall "SetResolveProxies" "bool")].
(** EUnsetFromID, ereference_impl.go:197-210 *)
Definition EReference_unset : list (Z * unset_case) :=
  [(EREFERENCE__CONTAINMENT, UCall "SetContainment" (LBool false));
   (EREFERENCE__EKEYS, UClear "GetEKeys");
   (EREFERENCE__EOPPOSITE, UCall "SetEOpposite" (LNil));
   (EREFERENCE__RESOLVE_PROXIES, UCall "SetResolveProxies" (LBool true))].
(** EIsSetFromID, ereference_impl.go:212-229 *)
Definition EReference_isSet : list (Z * isSet_case) :=
  [(EREFERENCE__CONTAINER, ICall "IsContainer" (LBool false));
   (EREFERENCE__CONTAINMENT, IField "isContainment" (LBool false));
   (EREFERENCE__EKEYS, IList "eKeys");
   (EREFERENCE__EOPPOSITE, IField "eOpposite" (LNil));
   (EREFERENCE__EREFERENCE_TYPE, ICall "GetEReferenceType" (LNil));
   (EREFERENCE__RESOLVE_PROXIES, IField "isResolveProxies" (LBool true))].
Definition EReference_add : list (Z * add_case) := [].
Definition EReference_remove : list (Z * remove_case) := [].
Definition EReference_getters : list (string * getter) :=
  [("GetEKeys", MLazy "eKeys" "initEKeys") (* 67-72 *);
   ("GetEOpposite", MResolved "eOpposite") (* 75-87 *);
   ("basicGetEOpposite", MField "eOpposite") (* 89-91 *);
   ("GetEReferenceType", MPanic) (* 103-105 *);
   ("basicGetEReferenceType", MPanic) (* 107-109 *);
   ("IsContainer", MPanic) (* 112-114 *);
   ("IsContainment", MField "isContainment") (* 117-119 *);
   ("IsResolveProxies", MField "isResolveProxies") (* 131-133 *)].
Definition EReference_setters : list (string * setter) :=
  [("SetEOpposite", TField "eOpposite" EREFERENCE__EOPPOSITE) (* 94-100 *);
   ("SetContainment", TField "isContainment" EREFERENCE__CONTAINMENT) (* 122-128 *);
   ("SetResolveProxies", TField "isResolveProxies" EREFERENCE__RESOLVE_PROXIES) (* 136-142 *)].
Definition EReference_basics : list (string * basic) := [].
Definition EReference_unsetters : list (string * unsetter) := [].
Definition EReference_inits : list (string * new_value) :=
  [("initEKeys", NList "" EREFERENCE__EKEYS (-1) false false false true false) (* 144-146 *)].
(** Initialize, ereference_impl.go:39-44 *)
Definition EReference_initialize : list (string * literal) := [("isContainment", LBool false); ("isResolveProxies", LBool true)].
Definition EReference_class : class := Class EReference_embeds EReference_static EReference_get EReference_set EReference_unset EReference_isSet EReference_add EReference_remove
  EReference_getters EReference_setters EReference_basics EReference_unsetters EReference_inits EReference_initialize.

(** *** EStringToStringMapEntry, estringtostringmapentry_impl.go *)
Definition EStringToStringMapEntry_embeds : option nat := None. (* embeds CompactEObjectContainer *)
(** EStaticClass, EStaticFeatureCount, estringtostringmapentry_impl.go:40-46 *)
Definition EStringToStringMapEntry_static : nat * Z := (cEStringToStringMapEntry, ESTRING_TO_STRING_MAP_ENTRY_FEATURE_COUNT).
(** EGetFromID, estringtostringmapentry_impl.go:91-100 *)
Definition EStringToStringMapEntry_get : list (Z * get_case) :=
  [(ESTRING_TO_STRING_MAP_ENTRY__KEY, GCall "GetTypedKey");
   (ESTRING_TO_STRING_MAP_ENTRY__VALUE, GCall "GetTypedValue")].
(** ESetFromID, estringtostringmapentry_impl.go:102-111 *)
Definition EStringToStringMapEntry_set : list (Z * set_case) :=
  [(ESTRING_TO_STRING_MAP_ENTRY__KEY, SCall "SetTypedKey" "string");
   (ESTRING_TO_STRING_MAP_ENTRY__VALUE, SCall "SetTypedValue" "string")].
(** EUnsetFromID, estringtostringmapentry_impl.go:113-122 *)
Definition EStringToStringMapEntry_unset : list (Z * unset_case) :=
  [(ESTRING_TO_STRING_MAP_ENTRY__KEY, UCall "SetTypedKey" (LStr ""));
   (ESTRING_TO_STRING_MAP_ENTRY__VALUE, UCall "SetTypedValue" (LStr ""))].
(** EIsSetFromID, estringtostringmapentry_impl.go:124-133 *)
Definition EStringToStringMapEntry_isSet : list (Z * isSet_case) :=
  [(ESTRING_TO_STRING_MAP_ENTRY__KEY, IField "key" (LStr ""));
   (ESTRING_TO_STRING_MAP_ENTRY__VALUE, IField "value" (LStr ""))].
Definition EStringToStringMapEntry_add : list (Z * add_case) := [].
Definition EStringToStringMapEntry_remove : list (Z * remove_case) := [].
Definition EStringToStringMapEntry_getters : list (string * getter) :=
  [("GetTypedKey", MField "key") (* 64-66 *);
   ("GetTypedValue", MField "value") (* 78-80 *)].
Definition EStringToStringMapEntry_setters : list (string * setter) :=
  [("SetTypedKey", TField "key" ESTRING_TO_STRING_MAP_ENTRY__KEY) (* 69-75 *);
   ("SetTypedValue", TField "value" ESTRING_TO_STRING_MAP_ENTRY__VALUE) (* 83-89 *)].
Definition EStringToStringMapEntry_basics : list (string * basic) := [].
Definition EStringToStringMapEntry_unsetters : list (string * unsetter) := [].
Definition EStringToStringMapEntry_inits : list (string * new_value) := [].
(** Initialize, estringtostringmapentry_impl.go:29-34 *)
Definition EStringToStringMapEntry_initialize : list (string * literal) := [("key", LStr ""); ("value", LStr "")].
Definition EStringToStringMapEntry_class : class := Class EStringToStringMapEntry_embeds EStringToStringMapEntry_static EStringToStringMapEntry_get EStringToStringMapEntry_set EStringToStringMapEntry_unset EStringToStringMapEntry_isSet EStringToStringMapEntry_add EStringToStringMapEntry_remove
  EStringToStringMapEntry_getters EStringToStringMapEntry_setters EStringToStringMapEntry_basics EStringToStringMapEntry_unsetters EStringToStringMapEntry_inits EStringToStringMapEntry_initialize.

(** *** EStructuralFeature, estructuralfeature_impl.go *)
Definition EStructuralFeature_embeds : option nat := Some cETypedElement. (* embeds ETypedElementExt *)
(** EStaticClass, EStaticFeatureCount, estructuralfeature_impl.go:54-60 *)
Definition EStructuralFeature_static : nat * Z := (cEStructuralFeature, ESTRUCTURAL_FEATURE_FEATURE_COUNT).
(** EGetFromID, estructuralfeature_impl.go:183-206 *)
Definition EStructuralFeature_get : list (Z * get_case) :=
  [(ESTRUCTURAL_FEATURE__CHANGEABLE, GCall "IsChangeable");
   (ESTRUCTURAL_FEATURE__DEFAULT_VALUE, GCall "GetDefaultValue");
   (ESTRUCTURAL_FEATURE__DEFAULT_VALUE_LITERAL, GCall "GetDefaultValueLiteral");
   (ESTRUCTURAL_FEATURE__DERIVED, GCall "IsDerived");
   (ESTRUCTURAL_FEATURE__ECONTAINING_CLASS, GCall "GetEContainingClass");
   (ESTRUCTURAL_FEATURE__FEATURE_ID, GCall "GetFeatureID");
   (ESTRUCTURAL_FEATURE__TRANSIENT, GCall "IsTransient");
   (ESTRUCTURAL_FEATURE__UNSETTABLE, GCall "IsUnsettable");
   (ESTRUCTURAL_FEATURE__VOLATILE, GCall "IsVolatile")].
(** ESetFromID, estructuralfeature_impl.go:208-229 *)
Definition EStructuralFeature_set : list (Z * set_case) :=
  [(ESTRUCTURAL_FEATURE__CHANGEABLE, SCall "SetChangeable" "bool");
   (ESTRUCTURAL_FEATURE__DEFAULT_VALUE, SCall "SetDefaultValue" "any");
   (ESTRUCTURAL_FEATURE__DEFAULT_VALUE_LITERAL, SCall "SetDefaultValueLiteral" "string");
   (ESTRUCTURAL_FEATURE__DERIVED, SCall "SetDerived" "bool");
   (ESTRUCTURAL_FEATURE__FEATURE_ID, SCall "SetFeatureID" "int");
   (ESTRUCTURAL_FEATURE__TRANSIENT, SCall "SetTransient" "bool");
   (ESTRUCTURAL_FEATURE__UNSETTABLE, SCall "SetUnsettable" "bool");
   (ESTRUCTURAL_FEATURE__VOLATILE, SCall "SetVolatile" "bool")].
(** EUnsetFromID, estructuralfeature_impl.go:231-252 *)
Definition EStructuralFeature_unset : list (Z * unset_case) :=
  [(ESTRUCTURAL_FEATURE__CHANGEABLE, UCall "SetChangeable" (LBool true));
   (ESTRUCTURAL_FEATURE__DEFAULT_VALUE, UCall "SetDefaultValue" (LNil));
   (ESTRUCTURAL_FEATURE__DEFAULT_VALUE_LITERAL, UCall "SetDefaultValueLiteral" (LStr ""));
   (ESTRUCTURAL_FEATURE__DERIVED, UCall "SetDerived" (LBool false));
   (ESTRUCTURAL_FEATURE__FEATURE_ID, UCall "SetFeatureID" (LInt (-1)));
   (ESTRUCTURAL_FEATURE__TRANSIENT, UCall "SetTransient" (LBool false));
   (ESTRUCTURAL_FEATURE__UNSETTABLE, UCall "SetUnsettable" (LBool false));
   (ESTRUCTURAL_FEATURE__VOLATILE, UCall "SetVolatile" (LBool false))].
(** EIsSetFromID, estructuralfeature_impl.go:254-277 *)
Definition EStructuralFeature_isSet : list (Z * isSet_case) :=
  [(ESTRUCTURAL_FEATURE__CHANGEABLE, IField "isChangeable" (LBool true));
   (ESTRUCTURAL_FEATURE__DEFAULT_VALUE, ICall "GetDefaultValue" (LNil));
   (ESTRUCTURAL_FEATURE__DEFAULT_VALUE_LITERAL, IField "defaultValueLiteral" (LStr ""));
   (ESTRUCTURAL_FEATURE__DERIVED, IField "isDerived" (LBool false));
   (ESTRUCTURAL_FEATURE__ECONTAINING_CLASS, ICall "GetEContainingClass" (LNil));
   (ESTRUCTURAL_FEATURE__FEATURE_ID, IField "featureID" (LInt (-1)));
   (ESTRUCTURAL_FEATURE__TRANSIENT, IField "isTransient" (LBool false));
   (ESTRUCTURAL_FEATURE__UNSETTABLE, IField "isUnsettable" (LBool false));
   (ESTRUCTURAL_FEATURE__VOLATILE, IField "isVolatile" (LBool false))].
(** EBasicInverseAdd, estructuralfeature_impl.go:288-299 *)
Definition EStructuralFeature_add : list (Z * add_case) :=
  [(ESTRUCTURAL_FEATURE__ECONTAINING_CLASS, AContainer (BContainer ESTRUCTURAL_FEATURE__ECONTAINING_CLASS))].
(** EBasicInverseRemove, estructuralfeature_impl.go:301-308 *)
Definition EStructuralFeature_remove : list (Z * remove_case) :=
  [(ESTRUCTURAL_FEATURE__ECONTAINING_CLASS, RmBasic (BContainer ESTRUCTURAL_FEATURE__ECONTAINING_CLASS))].
Definition EStructuralFeature_getters : list (string * getter) :=
  [("GetDefaultValue", MPanic) (* 68-70 *);
   ("GetDefaultValueLiteral", MField "defaultValueLiteral") (* 78-80 *);
   ("GetEContainingClass", MContainer ESTRUCTURAL_FEATURE__ECONTAINING_CLASS) (* 92-97 *);
   ("GetFeatureID", MField "featureID") (* 100-102 *);
   ("IsChangeable", MField "isChangeable") (* 114-116 *);
   ("IsDerived", MField "isDerived") (* 128-130 *);
   ("IsTransient", MField "isTransient") (* 142-144 *);
   ("IsUnsettable", MField "isUnsettable") (* 156-158 *);
   ("IsVolatile", MField "isVolatile") (* 170-172 *)].
Definition EStructuralFeature_setters : list (string * setter) :=
  [("SetDefaultValue", TPanic) (* 73-75 *);
   ("SetDefaultValueLiteral", TField "defaultValueLiteral" ESTRUCTURAL_FEATURE__DEFAULT_VALUE_LITERAL) (* 83-89 *);
   ("SetFeatureID", TField "featureID" ESTRUCTURAL_FEATURE__FEATURE_ID) (* 105-111 *);
   ("SetChangeable", TField "isChangeable" ESTRUCTURAL_FEATURE__CHANGEABLE) (* 119-125 *);
   ("SetDerived", TField "isDerived" ESTRUCTURAL_FEATURE__DERIVED) (* 133-139 *);
   ("SetTransient", TField "isTransient" ESTRUCTURAL_FEATURE__TRANSIENT) (* 147-153 *);
   ("SetUnsettable", TField "isUnsettable" ESTRUCTURAL_FEATURE__UNSETTABLE) (* 161-167 *);
   ("SetVolatile", TField "isVolatile" ESTRUCTURAL_FEATURE__VOLATILE) (* 175-181 *)].
Definition EStructuralFeature_basics : list (string * basic) := [].
Definition EStructuralFeature_unsetters : list (string * unsetter) := [].
Definition EStructuralFeature_inits : list (string * new_value) := [].
(** Initialize, estructuralfeature_impl.go:38-48 *)
Definition EStructuralFeature_initialize : list (string * literal) := [("defaultValueLiteral", LStr ""); ("featureID", LInt (-1)); ("isChangeable", LBool true); ("isDerived", LBool false); ("isTransient", LBool false); ("isUnsettable", LBool false); ("isVolatile", LBool false)].
Definition EStructuralFeature_class : class := Class EStructuralFeature_embeds EStructuralFeature_static EStructuralFeature_get EStructuralFeature_set EStructuralFeature_unset EStructuralFeature_isSet EStructuralFeature_add EStructuralFeature_remove
  EStructuralFeature_getters EStructuralFeature_setters EStructuralFeature_basics EStructuralFeature_unsetters EStructuralFeature_inits EStructuralFeature_initialize.

(** *** ETypeParameter, etypeparameter_impl.go *)
Definition ETypeParameter_embeds : option nat := Some cENamedElement. (* embeds ENamedElementImpl *)
(** EStaticClass, EStaticFeatureCount, etypeparameter_impl.go:44-50 *)
Definition ETypeParameter_static : nat * Z := (cETypeParameter, ETYPE_PARAMETER_FEATURE_COUNT).
(** EGetFromID, etypeparameter_impl.go:64-71 *)
Definition ETypeParameter_get : list (Z * get_case) :=
  [(ETYPE_PARAMETER__EBOUNDS, GCall "GetEBounds")].
(** ESetFromID, etypeparameter_impl.go:73-82 *)
Definition ETypeParameter_set : list (Z * set_case) :=
  [(ETYPE_PARAMETER__EBOUNDS, SList "GetEBounds")].
(** EUnsetFromID, etypeparameter_impl.go:84-91 *)
Definition ETypeParameter_unset : list (Z * unset_case) :=
  [(ETYPE_PARAMETER__EBOUNDS, UClear "GetEBounds")].
(** EIsSetFromID, etypeparameter_impl.go:93-100 *)
Definition ETypeParameter_isSet : list (Z * isSet_case) :=
  [(ETYPE_PARAMETER__EBOUNDS, IList "eBounds")].
Definition ETypeParameter_add : list (Z * add_case) := [].
(** EBasicInverseRemove, etypeparameter_impl.go:102-110 *)
Definition ETypeParameter_remove : list (Z * remove_case) :=
  [(ETYPE_PARAMETER__EBOUNDS, RmList "GetEBounds")].
Definition ETypeParameter_getters : list (string * getter) :=
  [("GetEBounds", MLazy "eBounds" "initEBounds") (* 53-58 *)].
Definition ETypeParameter_setters : list (string * setter) := [].
Definition ETypeParameter_basics : list (string * basic) := [].
Definition ETypeParameter_unsetters : list (string * unsetter) := [].
Definition ETypeParameter_inits : list (string * new_value) :=
  [("initEBounds", NList "" ETYPE_PARAMETER__EBOUNDS (-1) true true false false false) (* 60-62 *)].
(** Initialize, etypeparameter_impl.go:31-34 *)
Definition ETypeParameter_initialize : list (string * literal) := [].
Definition ETypeParameter_class : class := Class ETypeParameter_embeds ETypeParameter_static ETypeParameter_get ETypeParameter_set ETypeParameter_unset ETypeParameter_isSet ETypeParameter_add ETypeParameter_remove
  ETypeParameter_getters ETypeParameter_setters ETypeParameter_basics ETypeParameter_unsetters ETypeParameter_inits ETypeParameter_initialize.

(** *** ETypedElement, etypedelement_impl.go *)
Definition ETypedElement_embeds : option nat := Some cENamedElement. (* embeds ENamedElementImpl *)
(** EStaticClass, EStaticFeatureCount, etypedelement_impl.go:53-59 *)
Definition ETypedElement_static : nat * Z := (cETypedElement, ETYPED_ELEMENT_FEATURE_COUNT).
(** EGetFromID, etypedelement_impl.go:164-186 *)
Definition ETypedElement_get : list (Z * get_case) :=
  [(ETYPED_ELEMENT__ETYPE, GResolve "GetEType");
   (ETYPED_ELEMENT__LOWER_BOUND, GCall "GetLowerBound");
   (ETYPED_ELEMENT__MANY, GCall "IsMany");
   (ETYPED_ELEMENT__ORDERED, GCall "IsOrdered");
   (ETYPED_ELEMENT__REQUIRED, GCall "IsRequired");
   (ETYPED_ELEMENT__UNIQUE, GCall "IsUnique");
   (ETYPED_ELEMENT__UPPER_BOUND, GCall "GetUpperBound")].
(** ESetFromID, etypedelement_impl.go:188-204 *)
Definition ETypedElement_set : list (Z * set_case) :=
  [(ETYPED_ELEMENT__ETYPE, SCallOrNil "SetEType" "EClassifier");
   (ETYPED_ELEMENT__LOWER_BOUND, SCall "SetLowerBound" "int");
   (ETYPED_ELEMENT__ORDERED, SCall "SetOrdered" "bool");
   (ETYPED_ELEMENT__UNIQUE, SCall "SetUnique" "bool");
   (ETYPED_ELEMENT__UPPER_BOUND, SCall "SetUpperBound" "int")].
(** EUnsetFromID, etypedelement_impl.go:206-221 *)
Definition ETypedElement_unset : list (Z * unset_case) :=
  [(ETYPED_ELEMENT__ETYPE, UUnset "UnsetEType");
   (ETYPED_ELEMENT__LOWER_BOUND, UCall "SetLowerBound" (LInt (0)));
   (ETYPED_ELEMENT__ORDERED, UCall "SetOrdered" (LBool true));
   (ETYPED_ELEMENT__UNIQUE, UCall "SetUnique" (LBool true));
   (ETYPED_ELEMENT__UPPER_BOUND, UCall "SetUpperBound" (LInt (1)))].
(** EIsSetFromID, etypedelement_impl.go:223-242 *)
Definition ETypedElement_isSet : list (Z * isSet_case) :=
  [(ETYPED_ELEMENT__ETYPE, IField "eType" (LNil));
   (ETYPED_ELEMENT__LOWER_BOUND, IField "lowerBound" (LInt (0)));
   (ETYPED_ELEMENT__MANY, ICall "IsMany" (LBool false));
   (ETYPED_ELEMENT__ORDERED, IField "isOrdered" (LBool true));
   (ETYPED_ELEMENT__REQUIRED, ICall "IsRequired" (LBool false));
   (ETYPED_ELEMENT__UNIQUE, IField "isUnique" (LBool true));
   (ETYPED_ELEMENT__UPPER_BOUND, IField "upperBound" (LInt (1)))].
Definition ETypedElement_add : list (Z * add_case) := [].
Definition ETypedElement_remove : list (Z * remove_case) := [].
Definition ETypedElement_getters : list (string * getter) :=
  [("GetEType", MResolved "eType") (* 62-74 *);
   ("basicGetEType", MField "eType") (* 76-78 *);
   ("IsMany", MPanic) (* 99-101 *);
   ("IsOrdered", MField "isOrdered") (* 104-106 *);
   ("IsRequired", MPanic) (* 118-120 *);
   ("IsUnique", MField "isUnique") (* 123-125 *);
   ("GetLowerBound", MField "lowerBound") (* 137-139 *);
   ("GetUpperBound", MField "upperBound") (* 151-153 *)].
Definition ETypedElement_setters : list (string * setter) :=
  [("SetEType", TField "eType" ETYPED_ELEMENT__ETYPE) (* 81-87 *);
   ("SetOrdered", TField "isOrdered" ETYPED_ELEMENT__ORDERED) (* 109-115 *);
   ("SetUnique", TField "isUnique" ETYPED_ELEMENT__UNIQUE) (* 128-134 *);
   ("SetLowerBound", TField "lowerBound" ETYPED_ELEMENT__LOWER_BOUND) (* 142-148 *);
   ("SetUpperBound", TField "upperBound" ETYPED_ELEMENT__UPPER_BOUND) (* 156-162 *)].
Definition ETypedElement_basics : list (string * basic) := [].
Definition ETypedElement_unsetters : list (string * unsetter) :=
  [("UnsetEType", WField "eType" ETYPED_ELEMENT__ETYPE) (* 90-96 *)].
Definition ETypedElement_inits : list (string * new_value) := [].
(** Initialize, etypedelement_impl.go:36-43 *)
Definition ETypedElement_initialize : list (string * literal) := [("isOrdered", LBool true); ("isUnique", LBool true); ("lowerBound", LInt (0)); ("upperBound", LInt (1))].
Definition ETypedElement_class : class := Class ETypedElement_embeds ETypedElement_static ETypedElement_get ETypedElement_set ETypedElement_unset ETypedElement_isSet ETypedElement_add ETypedElement_remove
  ETypedElement_getters ETypedElement_setters ETypedElement_basics ETypedElement_unsetters ETypedElement_inits ETypedElement_initialize.

(** EObject has no features, eobject_impl.go:14-40 *)
Definition EObject_class : class := Class None (cEObject, EOBJECT_FEATURE_COUNT) [] [] [] [] [] [] [] [] [] [] [] [].

Definition classes : list class :=
  [EAnnotation_class; EAttribute_class; EClass_class; EClassifier_class; EDataType_class; EEnum_class; EEnumLiteral_class; EFactory_class; EGenericType_class; EModelElement_class; ENamedElement_class; EObject_class; EOperation_class; EPackage_class; EParameter_class; EReference_class; EStringToStringMapEntry_class; EStructuralFeature_class; ETypeParameter_class; ETypedElement_class].
