(** * The concrete ring points of three servers named a, b and c, computed once (values of the real
    SHA-1), for the examples and refutations of PropRing.v. Not repository code. *)
From Verif Require Import GoBytes GoNum GoIO Hash Ring.
Local Open Scope Z_scope.

Definition sv_a := mkServer 0 (B "a").
Definition sv_b := mkServer 1 (B "b").
Definition sv_c := mkServer 2 (B "c").

Definition tab_a : list Z :=
  [265014423; 751984052; 1574390774; 2818736078; 1453802615; 1192643539; 67546781; 614623041;
   1497770771; 590170300; 358290437; 3654197345; 2611752715; 2977603735; 1047628261; 3756724962;
   3104187777; 773826665; 2810160769; 2055156995; 2508566686; 3554649637; 3587324785; 1963654777;
   3901178034; 1478402087; 2767296065; 962286534; 3907285109; 479500354; 619632924; 3031470898;
   1944342767; 3960868609; 340503135; 2301896645; 3307394839; 2129165858; 1921309460; 3558471853;
   281443486; 296361005; 1083069235; 2355609295; 957909410; 3833035147; 3596896106; 3796289583;
   2974614070; 3154319942; 3049162098; 4111092522; 1202355075; 585739115; 1162161232; 1144617955;
   1457702894; 1857726648; 1450995937; 4520487; 2386857856; 1003659486; 347867470; 1662081301;
   1534506563; 1215981741; 439077657; 2345921596; 2897566076; 3212082951; 2466707571; 92209449;
   3087175974; 149771107; 144297712; 391737672; 174828824; 3107421895; 2901009755; 3481168917;
   288738056; 2396990110; 2674961335; 1848178957; 2094093930; 816276324; 4203323893; 3486734512;
   3403386806; 1333448261; 858730637; 1955102673; 3678708736; 1877671872; 317769706; 2356797063;
   4227813066; 1518284689; 1435088037; 725808609; 1961234625; 2024326073; 3672702654; 4092796989;
   781884133; 1113774420; 1619847421; 4062784589; 2991175909; 311941726; 4089402969; 1247796685;
   1649952045; 1966519853; 2667247515; 3779113383; 630107994; 366516381; 3690942734; 3403017652;
   2514331603; 615852610; 3954358304; 474819231; 346370480; 3380029594; 1853460258; 3293875723;
   307810892; 1372900427; 548855807; 913079525; 1103452967; 4100413174; 2823133312; 1230079624;
   2875317485; 4019526057; 959498775; 1864443088; 427905292; 108105744; 3768295807; 2616413878;
   3252991074; 3361981244; 2764153245; 1614617366; 381259041; 555128440; 2504040481; 2645335112;
   4240040137; 2600144104; 1756073630; 3677677650; 1155616862; 2202995270; 4028667024; 1356301604;
   3982327778; 684308949; 3999203346; 4108441685; 4184340510; 1459946824; 424959423; 277265398;
   2176288575; 1919995746; 2954915086; 1419166938; 2512688060; 1330642604; 2396262933; 3396639846;
   516427165; 2602817276; 3707451477; 638673095; 3065948335; 2275199293; 912696018; 3157141827;
   1106905200; 3341856085; 1001028308; 1199934160; 531952955; 2346421502; 1551296599; 4271726291;
   1324450630; 1424904317; 1643611397; 4201833225; 709986302; 3209732525; 3549213974; 1284538533].
Definition tab_b : list Z :=
  [1280855178; 6046377; 1100437792; 1059490883; 2312880879; 832342178; 282779270; 3978547788;
   313671211; 1403305339; 1164738024; 1193987464; 4169631439; 2745149081; 385889552; 3696096226;
   37947688; 547802050; 3524252730; 1762084268; 383992741; 3808471197; 693901581; 3482721709;
   3929669524; 2012435180; 1647811529; 1588756801; 1569184183; 3729738532; 173209840; 1045533227;
   4236287884; 3272131279; 2874919102; 927387377; 3364345106; 3464116851; 1124089411; 3034179173;
   2510122059; 2432462715; 4005583535; 2117290204; 3901769348; 3939441088; 218117994; 3625883641;
   1199500629; 1345251503; 1808364597; 2564584309; 3782160353; 1561893507; 2477028218; 1186349325;
   1739770833; 2769381487; 1460188771; 3286218170; 1526783966; 3301454062; 2819164322; 826379825;
   917719829; 1207996029; 3642402081; 2011384196; 2642131491; 913012693; 873094348; 4200132460;
   3590331401; 2383798492; 427582416; 3461720440; 2199020915; 3824917808; 2278772038; 90956033;
   3340532482; 3476234024; 3047520309; 2510000874; 4053371884; 2426058989; 3182925680; 2304424672;
   843506343; 188864539; 1037640397; 3925175039; 1310901408; 3354988490; 4231531553; 3783995362;
   1980129582; 1577561567; 920125786; 2774125785; 2655605999; 137049307; 1389104485; 2986116724;
   1049546896; 2387187224; 2518597215; 547417723; 4224449803; 1802965527; 1339048973; 1514533256;
   3467861250; 841879009; 4014494023; 2370413215; 2582240814; 3299903486; 44818459; 1283589845;
   1316909602; 2904357357; 2790892400; 3810977622; 2142344297; 2271510374; 1085949364; 598362930;
   794172782; 1872699165; 2189009134; 1080945191; 1317403274; 237287477; 2378293918; 566921251;
   3925822184; 2935369709; 463837675; 1492347094; 4216098811; 690765788; 3835348123; 1012572448;
   1943291120; 885586442; 679308911; 1043308719; 2656835130; 524326492; 247516393; 1757373046;
   4045942382; 13493252; 2501068451; 4201484; 1422878207; 2222715925; 4271788360; 33082908;
   2259693761; 3844378594; 280645492; 1108825940; 2614980916; 1500416789; 3911593762; 3817857288;
   4147365319; 3036990423; 975907002; 1185924980; 3582906902; 977189682; 2194325494; 2161489079;
   1172997411; 4022632772; 1969744464; 3089574481; 1836496755; 2920840172; 494294697; 3798191134;
   1626169411; 1089488380; 656383051; 3496995816; 2855512391; 768011114; 3832161235; 2709965014;
   3164963397; 1846032589; 2340071818; 4032473393; 2923877647; 2504682749; 150842496; 178432464].
Definition tab_c : list Z :=
  [1682703882; 3832408142; 4165755305; 3431270556; 361551455; 2979125410; 3439455144; 3634799226;
   2098808148; 375329819; 4052104674; 373974842; 2265944514; 689124955; 3946062931; 964406641;
   1335824290; 2918102646; 4268218082; 3334817802; 3246579111; 2694005576; 2733126676; 81776085;
   644373744; 626399797; 331782560; 4220744299; 27920308; 3843996125; 701061601; 2536923119;
   1031616806; 601892799; 184326323; 291117261; 3634770628; 1374268891; 2452503806; 3994535561;
   390197940; 2968108364; 572827598; 1213165021; 2299619444; 2926827052; 3678349339; 1842986734;
   84876190; 2701431976; 840829898; 2827425531; 2209741; 1659873186; 1804265059; 620625965;
   236798222; 3131016179; 985532249; 1847864834; 799034254; 1168652151; 1099410311; 2571016358;
   1988156487; 303289819; 1176522238; 3716617816; 2803527101; 4111754184; 3046429783; 1278588423;
   2022822152; 4153662313; 902169758; 3079960038; 779695662; 1193195120; 2130681841; 1957452080;
   977043955; 1835101325; 3414343498; 2089681007; 2196500154; 1149175066; 1121967315; 1202894178;
   2884343725; 3041913662; 849237675; 1964732671; 1250194571; 522577047; 1459805717; 1518801730;
   3098494203; 2799074632; 1377364646; 2563165732; 2690233740; 1020388717; 1534238464; 2607262367;
   3322752066; 3462917330; 521764099; 4101453437; 3355738184; 989197019; 1675857194; 458944071;
   2156309933; 1711944474; 3670656829; 3593041914; 857477977; 1290507084; 648303221; 4271605139;
   2344692799; 999783460; 1087918519; 3466058448; 2570874110; 4181849233; 590280649; 272927830;
   1266345673; 1685291960; 3286383643; 2785524731; 2847114651; 4093715049; 2644472476; 2935236327;
   2419207199; 3195967339; 3966981837; 1390772831; 3114525703; 2352427819; 1770681209; 1466441361;
   918902391; 1853797062; 3758093046; 1668844792; 333685787; 3437180967; 2662594583; 3909098350;
   2638983647; 4163684995; 1462824108; 3807390424; 476947031; 343468559; 2676294062; 3991100467;
   1903281003; 3283041259; 2410518150; 2682071337; 640206232; 503965535; 1752314221; 3902862763;
   1607660963; 302312894; 4074974532; 1813055736; 2075747523; 3668274036; 2901422618; 1883361012;
   1457324470; 421541056; 2180774552; 682635066; 3042237517; 4064843597; 3818681667; 3501936723;
   2156575892; 2159022380; 2311661755; 799591988; 2322306882; 2440722387; 4123606595; 2679589102;
   818456574; 2569772342; 2604403017; 3851381476; 1359356530; 1284571809; 2058084440; 3766481989].

Fixpoint zlist_eqb (a b : list Z) : bool :=
  match a, b with
  | [], [] => true
  | x :: a', y :: b' => (x =? y) && zlist_eqb a' b'
  | _, _ => false
  end.
Lemma zlist_eqb_eq : forall a b, zlist_eqb a b = true -> a = b.
Proof.
  induction a as [|x a IH]; intros [|y b] H; try discriminate H; [reflexivity|].
  cbn [zlist_eqb] in H. apply andb_prop in H. destruct H as [E H]. apply Z.eqb_eq in E. subst. f_equal. apply IH, H.
Qed.
Lemma points_tab : forall s tab, zlist_eqb (map nd_hash (points_of s)) tab = true -> points_of s = map (mkNode s) tab.
Proof.
  intros s tab H. apply zlist_eqb_eq in H. rewrite <- H. unfold points_of. rewrite !map_map. cbn [nd_hash]. reflexivity.
Qed.
Lemma points_a : points_of sv_a = map (mkNode sv_a) tab_a.
Proof. apply points_tab. vm_compute. reflexivity. Qed.
Lemma points_b : points_of sv_b = map (mkNode sv_b) tab_b.
Proof. apply points_tab. vm_compute. reflexivity. Qed.
Lemma points_c : points_of sv_c = map (mkNode sv_c) tab_c.
Proof. apply points_tab. vm_compute. reflexivity. Qed.

Definition pts_a := map (mkNode sv_a) tab_a.
Definition pts_b := map (mkNode sv_b) tab_b.
Definition pts_c := map (mkNode sv_c) tab_c.
Lemma points_ab : points [sv_a; sv_b] = pts_a ++ pts_b.
Proof. unfold points. cbn [flat_map]. rewrite points_a, points_b, app_nil_r. reflexivity. Qed.
Lemma points_abc : points [sv_a; sv_b; sv_c] = pts_a ++ pts_b ++ pts_c.
Proof. unfold points. cbn [flat_map]. rewrite points_a, points_b, points_c, app_nil_r. reflexivity. Qed.
Lemma points_cab : points [sv_c; sv_a; sv_b] = pts_c ++ pts_a ++ pts_b.
Proof. unfold points. cbn [flat_map]. rewrite points_a, points_b, points_c, app_nil_r. reflexivity. Qed.
Lemma ring_ab : new_ring [sv_a; sv_b] = sort_nodes (pts_a ++ pts_b).
Proof. unfold new_ring. rewrite points_ab. reflexivity. Qed.
Lemma ring_abc : new_ring [sv_a; sv_b; sv_c] = sort_nodes (pts_a ++ pts_b ++ pts_c).
Proof. unfold new_ring. rewrite points_abc. reflexivity. Qed.
Lemma ring_cab : new_ring [sv_c; sv_a; sv_b] = sort_nodes (pts_c ++ pts_a ++ pts_b).
Proof. unfold new_ring. rewrite points_cab. reflexivity. Qed.
