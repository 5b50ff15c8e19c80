(** * The ring points of two servers named ml and rc (values of the real SHA-1): their points ml/139 and
    rc/145 coincide. Not repository code. *)
From Verif Require Import GoBytes GoNum GoIO Hash Ring RingData.
Local Open Scope Z_scope.

Definition sv_ml := mkServer 0 (B "ml").
Definition sv_rc := mkServer 1 (B "rc").
Definition tab_ml : list Z :=
  [163598926; 1145365679; 3316471709; 1508659044; 318362032; 1580921744; 1111725814; 817329704;
   3856919600; 1415254159; 920040870; 3433655964; 3566542781; 316221385; 3593407163; 3454828141;
   1205785223; 95876437; 327076388; 798795668; 2992209638; 2858754453; 3399770883; 1077470776;
   2653055939; 2933689180; 1987540774; 446486993; 2838189232; 3220386671; 3928649804; 1625985867;
   3856192437; 1506135449; 3601672744; 2732737409; 3104427836; 1467675998; 920778000; 2607085167;
   2191204033; 1801355457; 729241734; 1196903945; 1738528268; 4265382140; 1313192983; 3254844369;
   345713643; 1518253504; 1434700747; 1052169769; 1944404679; 1306139044; 1823785978; 3489046920;
   3658496188; 4187918265; 3598577781; 621547613; 1189104467; 2022739959; 2424072201; 1774738883;
   721901299; 824519344; 322541651; 1926525849; 2809341309; 2161876598; 3361450007; 1920331695;
   1058731476; 2759356924; 1734717239; 3578266622; 2473491094; 1282981372; 2756096939; 2720160542;
   2046487279; 1710322987; 3383121850; 2032990261; 3069637188; 3864983035; 637970113; 2994548428;
   177295993; 3507215317; 1033358330; 268348173; 4164680840; 3413739170; 3215174598; 2722042538;
   2128516721; 1369489092; 2697199582; 2833970553; 4237109066; 2760692217; 570322483; 196724435;
   4252832596; 1450901214; 78256781; 2244906644; 1178139191; 4041616072; 2879816121; 409656381;
   3505771458; 3647753141; 3095274234; 1724792148; 113860519; 775990882; 3700062915; 1642455483;
   4046435811; 4119774301; 3261629283; 1775867734; 197138124; 2592743316; 3925791547; 2993541296;
   2403843012; 4093181213; 3328902772; 3849138073; 2263511112; 3473720646; 3843859200; 1960630687;
   1091130605; 2830228347; 967417295; 3137575507; 1769779548; 1723354617; 1845476994; 3526136781;
   4156469526; 2727906781; 319630045; 105849521; 2417901744; 1918138380; 2919984008; 1157535060;
   4138958268; 88990782; 2462739070; 948908165; 3591546256; 4062124153; 501193578; 100654861;
   919926690; 4036370720; 4260127481; 4207826251; 3280502779; 4211958086; 2435532769; 1638224474;
   1492276680; 2680836871; 613455466; 911265919; 680452924; 1780405613; 684863272; 1336355312;
   1040104334; 1341082862; 3058642957; 39321324; 1673232773; 3233462413; 1537972340; 3234049888;
   2542067286; 1026442015; 1550029202; 2953194764; 963828965; 1373829156; 2112523801; 782777444;
   3825564364; 1559181349; 3302518769; 4029143314; 2936278540; 787676771; 1358281622; 2420968672].
Definition tab_rc : list Z :=
  [3311460928; 83438025; 629725935; 2533604442; 1653963752; 942025093; 3626127537; 4130333647;
   475333493; 1184903799; 567901491; 3586821841; 1943870438; 1215589704; 2277972250; 4127105212;
   508560428; 3054106190; 1054992763; 121613949; 2044129013; 1793293520; 3442511344; 2917022519;
   2200989304; 738513043; 1316699321; 1875558870; 26386087; 1826517754; 867078783; 4141330468;
   1195364180; 300547550; 3531947307; 2531834658; 1148218838; 444828311; 898829780; 2981221736;
   169642299; 2144053851; 3338608517; 3058081738; 3988925331; 3651281395; 1787451039; 1101978135;
   2063948526; 4200753920; 2548457170; 2623289601; 401496684; 3113333602; 970877511; 4282423083;
   4151375751; 1428995504; 1298341269; 1907320035; 925227760; 535172674; 2692752315; 3820348135;
   688107952; 225724201; 1327916955; 2851420825; 2219142275; 1360055623; 1030790847; 3525927336;
   1059678331; 2552372587; 3699900863; 2584044662; 1667104275; 3793482579; 388186438; 2023428263;
   2806538184; 1471769830; 4282925452; 2288472584; 58839510; 2373244145; 847252865; 4099302826;
   713935337; 4163186640; 2915788025; 2790921163; 2902910892; 3476484102; 521260496; 2547821795;
   1828517459; 371671552; 3390332723; 2033648993; 4218949495; 302595753; 2006084302; 1501366193;
   2795669481; 384675526; 91851325; 4241195288; 4264414554; 3717779631; 3311741703; 342956464;
   2210512446; 604829981; 2593667890; 4142098780; 2330692364; 1785505710; 2774748087; 1406328637;
   4273645538; 3505272450; 3018115646; 1385812395; 2319228534; 3389556531; 3044116585; 3694463468;
   3625373739; 4285763685; 3710466104; 1577175646; 4262055106; 3357676653; 2729324604; 932716245;
   657428310; 3349108582; 232043970; 3562599894; 610854925; 2851692640; 964201318; 2168393066;
   2319370464; 3137575507; 2761310376; 3971958101; 557580250; 3173520352; 1866967799; 3416165274;
   4179219365; 3196032371; 2249541327; 1428907981; 2751237640; 1251944537; 284875976; 3623452473;
   848083875; 1382753019; 1820910948; 2888409222; 2779748394; 3207265429; 3831131321; 3562200398;
   1752169528; 3212921513; 776874768; 737679782; 2912220512; 1339091658; 3687844136; 2667263470;
   3963745038; 368868861; 1372864221; 1931174087; 3906915582; 917677650; 955628745; 1947249409;
   3108134812; 2031056306; 202462541; 3787438918; 2161665357; 191075529; 3296671513; 1410286386;
   2027815489; 2047399075; 2116574242; 2436508807; 644145820; 1281887490; 1558578295; 1714143961].
Definition pts_ml := map (mkNode sv_ml) tab_ml.
Definition pts_rc := map (mkNode sv_rc) tab_rc.
Lemma points_ml : points_of sv_ml = pts_ml.
Proof. apply points_tab. vm_compute. reflexivity. Qed.
Lemma points_rc : points_of sv_rc = pts_rc.
Proof. apply points_tab. vm_compute. reflexivity. Qed.
Lemma ring_ml_rc : new_ring [sv_ml; sv_rc] = sort_nodes (pts_ml ++ pts_rc).
Proof. unfold new_ring, points. cbn [flat_map]. rewrite points_ml, points_rc, app_nil_r. reflexivity. Qed.
Lemma ring_rc_ml : new_ring [sv_rc; sv_ml] = sort_nodes (pts_rc ++ pts_ml).
Proof. unfold new_ring, points. cbn [flat_map]. rewrite points_ml, points_rc, app_nil_r. reflexivity. Qed.
