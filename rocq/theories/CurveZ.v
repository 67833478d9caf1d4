(** * The specified secp256k1 addition is a commutative group
      (proof infrastructure over [Spec]) *)
From Coq Require Import ZArith Znumtheory List Lia Bool Field Ring.
From Verif Require Import NumTheory Primes Spec FieldP.
From Verif Require ECGroup.
Import ListNotations.
Open Scope Z_scope.

Add Field FpF : Fp_field.

Definition fb : Fp := fz 7.
Notation ept := (ECGroup.pt Fp).
Notation EInf := (ECGroup.Inf Fp).
Notation EAff := (ECGroup.Aff Fp).
Definition eadd : ept -> ept -> ept := ECGroup.padd Fp f0 f1 fadd fmul fsub fdiv Feq_dec.
Definition eneg : ept -> ept := ECGroup.pneg Fp fopp.
Definition eonc : ept -> Prop := ECGroup.onc Fp fadd fmul fb.

Lemma fz_small_inj x y : 0 <= x < P -> 0 <= y < P -> fz x = fz y -> x = y.
Proof. intros Hx Hy E. apply fz_eq_iff in E. rewrite !Z.mod_small in E by assumption. exact E. Qed.

Lemma f_two_nz : fadd f1 f1 <> f0.
Proof.
  unfold f1, f0. rewrite <- fz_add. intros E. apply fz_small_inj in E; [lia| |]; pose proof P_gt2; lia.
Qed.

(** quotients for the exponentiation below *)
Definition cube7_h : list Z :=
  [0x0;
   (-0x1);
   0xfffffffffffffffffffffffffffffffffffffffffffffffffffffffeffff78e1;
   (-0x1);
   0xfffffffffffffffffffffffffffffffffffffffffffffffff07f4afce91abbe1;
   (-0x1);
   0xffff3a93160c6a3e06de850b5b6df1f562fe0d1e429188bd5eff080071e37754;
   (-0x3f71212238668d2f7a41b40949a020172f3f6bccbab9a075ba36f37ebf947308f);
   0x299b5720cb8f5235b702321e89fc9a0dbc9a44a2d9722c6327f8d9c219fe346;
   (-0x549c93529ab670155b21f9ae52f6fa8633a7218d4d4619f46776234d5db629c);
   0x6d2c4ffbdb14d007e38361d8821e8791cad456947d698e390007a2364bba293;
   (-0x21e96d16100583deda27a9bf0dca6a42b328b3dc7b076023319102b9134bef1d4);
   0x324cd5f6c929b3cb3db3da8b2011640595dd6e9fb9e00bef7f14fdc307ce2325;
   (-0x1161d4791f32aa1699f9b78d6e424d54cbbd294e23d3c37baed18e96e7f812bda);
   0x3ea44ec65a5e1594ccbbfc86d74aa5d523651ba2d9b0d14140b1dc70ef87d504;
   (-0x5e53b15e6da34d00a82a318b20910c2db9616779d7210b3f4ba00f5cee571bb49);
   0x81d24005a89d7dbaaa57d793a87a16da04cfaf07382163e3a1dceaeca3c6346d;
   (-0xab2bcd78ef504927ea2d3ad7ddb10f9fa785cc584e515b372d83ec909fe49da);
   0x8196a3e11a5aba48ed77da59d55acac55f0b3c08765ad177e2bd79eca9ed849e;
   (-0x1dd025a0f710e85a06431a71f932c3948e921eedf1047deafc9f0ae919737312c);
   0x60abc27c1387539c77d6805fd42a6553408ea628c6844957e6cbaf500f82cfe3;
   (-0xb07eabcbf75c78fea3e982b153762d9cb2d91cc42626d2e4ee54b1fecf585697);
   0xe8f327197ed178c4eaa7ebab59c16abcf59986b9b534e26ef20eb9ff3ccbd220;
   (-0x258c89252f67fe6df26ef4d0ef07a6087865e9fa219ed4e7f532943e7fd38331e);
   0xba485c16350e82e841597fefaa20af7e2c249aea11e50fd48bd394b7006c83c8;
   (-0x63bac327a832f1ab80d951f1a32b10c36811bd44067b310102861b1e284440eef);
   0xcad953c2259e8a92e9fc4dc8592026ff9595cf10dc1e7912581f640bd9772ce;
   (-0x2e63ed89b98822b9be7726582d546511d8e337cd272ad727b0b23acd92848ae5);
   0x32e9f43b2ff7573d02e45b20cf1fb4a6b71aa93067a06b14e65a1884e5b3f6d;
   (-0x48e48b09a4e2d9d4ea3e47e40f0c8d937aa53acf70df6e0147c9651343010dff);
   0x3e9dc98ba85ec15327e7023b1b2d8b83a30ae03c26a508e6cd12ff3828e57c6e;
   (-0x14e72ca85b16fd38870ebc38ac10900fb0d9aaf04a264d5de51a719b4168233);
   0x3b1c1d70ea94bb027bad1c12b5201cea9c4618e8ceb8694c87624e635e0c194;
   (-0x40a4f813075a61614c805db240b77085275e1626d59c0c35ce01ae7d7acc5c23a);
   0x8ee5190efc12644dfce9cb8df2e574bd273162b0a22a624eddcd993f8219a9d0;
   (-0xc562cf5a44c89721fc073d26a22982e606ee754cf6e40d56870adbb165dfd8c2);
   0x749a8a73b3fa02227c01ad499f731c910efe328674b8eb895d4ddba17552c890;
   (-0x1a9a47f85871c02624b0dc229bfd5264531d55bfb45dfab5bbfa3494171342f80);
   0x464604bd54bdededddca9c30e7a6fb5bc32e52baf1b6c61d8cdf09c989d5f0;
   (-0x38e62ebec99c8f9195c014662822f0c4c2ea8e8d019d3b77f4d8e804ccf1cf93);
   0x9784ba02d18d29daf9e143478a54ac15e431d0effb0e1d2ff1f38969b7724738;
   (-0x60f126df36d25c993d4ef23083eca52fd1f1679bacda0be6b5e3c47224b3f5aa6);
   0x36c07516198373f1d48c32740b4a6b7b1ac48d238b3cacc737e2d23ceeac7a2d;
   (-0x688c60432c19f72868bfa69c36a374b402f5c70b3d0b73f8c544b487165490f22);
   0x81b35976121fca5d36ad90f27b4765a200c2190191299184c789f4e17d7da39e;
   (-0x6cdb4c5beebb2b42f3de6849f344fc6cb10a653de58d52f16481e8968fd590feb);
   0x60248d798fa0c1b690a705c260defe11d6bb72660afb6734c78afcd7b1f3ae5;
   (-0xc92661dec4c37fee5f33f689b6a162479a90042d91a801264087653d3b8f4c98);
   0x97d02fdcce9aa09835f38311d3b6ce0d96743c1c4107f645cef6363132ce0ce;
   (-0x3f9b261db9025f5c25a2c8698c24f9353c9f8b499c4748b77187e191a71401c07);
   0x3275a5a8588b98338b51c51b5bd21c17595649a04b2c33b94bd004f5375;
   (-0x84d1d5784c475efa3e2b98d82bffb717de2bf8dae671e6772355ec9e210f5bd);
   0x3cc100f5e1d26ab9a00588bee8292cc5426aa5f3110a6ddb9bd6e0eb841191f2;
   (-0x5ac03904a17f2168da6dcfd57e63e569ca203e52174e4be026db0344505193b8f);
   0x1cf2081ff2956850002bf881fb3c0916e9c87d3b3994e00e700d0f2fdfb6d46f;
   (-0x8585717e92696b174775c360fc12ba7249b4042345d24c4253efa06be7d16454);
   0x1a8a38859e6337596d05fa135df8664eac4abd2bfe84284f7bb2eeadecfe0a28;
   (-0x407ac7c26f4c7317f80ba1e537f048b0d2de4569184c1890e907b6da73061f8d8);
   0x5107902d8038bfeafa9a34b21786de8d6bc538a89065f8d924a2a7a6481db3e;
   (-0x104dbcb8b4a48f31f3edbfeb4b04c3c41f5e77993858a7c1345476eee228306);
   0x64a336062cc036ab336a8e44715684c04275754d97896f664202565eef19baa;
   (-0xd88e61253f8edaa9e31aa314e1df2aab7083206c6c88128461ea45b37ddf87);
   0xd190f6d693e0f7af0faafd3b170c5d15f244da62d70cc49c6562ea68c46ca296;
   (-0x530621fc66686f9f92d4467294376797ed9b142cd8397c014544cd1d5ab72f759);
   0x59fa289976d345994cfd1c44a3fe72ade36cd814473cbb35d31f9379b65a0507;
   (-0x6867fa9789694813df8d70ca0d3e99784ad5ca8dafe79864c65ccce8cfa7fc74c);
   0x257ea4ba8a1a3d07e721b5b4be7b96927e5a24aa430a358f38ad344c993f1ec;
   (-0x255b61bf8440cc99c92e8f4515c4cd029ce48b882548ce7cf45e5358bc964e39e);
   0x40889401980af32e5067cdd8b4ae0bd02f8308a3157629367859814ffb9adcd;
   (-0x6f5d7fffb0e350f114afced3ef94efef91385c35cebb99286c22c8d94c324c1);
   0x8d2965011b9597ab43b0c48c76004f9c2b9c490a9f4959c43651ab7a1bc1209;
   (-0xb8edf411731f0fa45e913b3c28d542da04735885580d7f66e8b9cb856515ff96);
   0xe309323bae68579eb36a99ddb3a16fdca4ed0d254aa68479b3bf2b1535e84a1;
   (-0x16dbcff118639d4441fe2d7ccdfd369a9b3aff6fed12b8a8f9c231ea42d7f9066);
   0xe8d93fca364abc28b5565699e1205e8ce62af754ea5e325a4f9f682d1b1b9d1f;
   (-0x3438c07212f323fdaa1f81a93b822180692540dcc3579eda1ca7ba239a6ca1d68);
   0xec5c8cdcef47a09c66a5d558092dc9f06eff154270f6b746f2bad44db4fdcda5;
   (-0x2ba54fff6b1f928688c250ef1de245c365462a675c2323ec23f2c8f23e212823d);
   0x39c3e2969a06bd3987de6e33fa5ad9e446a53b7c7ccc3304f419e6d69812f09f;
   (-0x851523119443dc30cbac3ec534aede6340f5d1b2e0ae1db9d54bf87c8d8c702a);
   0x360455b6a913c20d7657be10b254b10a00ccf40f8e484b276e2a71ee844c9f2a;
   (-0xb0975692711eb4509adf4fd10d7c0843ff06d91bf4dcb35e2362f3d90dfbadf4);
   0xbe4450f025cae6491089f5cde3dae5ef746736eb6ccbb89f87bf01dffa8c1c20;
   (-0x5d1313ae1907540ae56d88e45f33c4ae439ae53aed16e986f6275cb3cead720c9);
   0xbd05a875c20e7d20a5e541969e4f6afd17dbeaf47d813a429e4c73522ca9262;
   (-0x7faa68f1f01d0450e826b8ff0f6bf49fab7a9bb3ae21d93fab34c9ca3a707b82);
   0x9ad02ca8d89fc6f36f0a55d6463ee06de29476ed05b50b75c9c1eb6372af4a83;
   (-0x1026daf7771affb67370643092231e342b846fd31780191a68101768c60800ad6);
   0x613fd3a8fba93d47650543a6a1b2e697424e0e951547b5959e64a5cf24384c5d;
   (-0xa5a3dfaff6968adc0a6442f171585b20c8da94d872acc79aa6a6b4c196665);
   0x3e4e3edd90143782005df7c2bc41e4ed96caf51f4db5dc9ff7b04c0ea387257;
   (-0x1e0bf5a345a0f988d233928226b07a1a93c0933a4ad0796831865583e6ac8818);
   0x69bc02f8ae8d8cbede86dbb97384cb05ac5718921729799d92afc1252490;
   (-0x13f5f2295f42cbfb933358f47b112f195bd6361d6dac095cf1b3aa047e67f38cb);
   0xfc88cb9202af06278e37a2afa4a3e01b7ed1736c7b04736e7330fdec75b5fcf2;
   (-0x3bd7bf227640ab5035cc6e544353532514703244a9477dbf51fa19bf9e06a0bd5);
   0x264d9a7d00f95f78fd840689b3429a0e87d9cb96a2f0c183acb38b556b8100d;
   (-0xeadead0abe5c16a0741b74b9a0fc4a1d020d3e40fee8fa1ef149cd8c9419a2fd);
   0xd864032b8d934af96ee98ca31cbc25fe94f8bdc110b0c3efe28861af1ae965d;
   (-0x6194dd16e5af060f0d3b6867c38949851b115084dd0247fd48afb413f73c828ea);
   0x157b5e6eaa96add7d7eaec83e75310331bd132d1c30306a488504823000bf052;
   (-0x3a9b80270398a57f97e11988c4711ea992726c04e2f706ed998a93d1c920b70c);
   0x202be3a1b0e07fca9a04157dfa284e228d58a62411881c13c5f3481671c4827e;
   (-0x5aa48b81239cf885aab715164288b9fe131df170bbe3ff8c224d027d4a6395b0a);
   0x494f2c3bbe5e0de9713116e8a7c019fc5a9d8fa605a2edb5fb90dafabae7b171;
   (-0x8dbc65fb31e7344cca5227ecefc57e2504292e9107a704ffcd78dda7831ec4f3);
   0x1bb35786c5f36d5f95a9a059c9a57be249e62c5d145faac6a39bac4d6f92fd1;
   (-0x38e6e45cd094e7baf1dc4d8672938075f8fcfc1767fbb7f77308a4bda4f0c0560);
   0xb9321809fae65bc8a24d448d01eeeb295e12bd48a9a7a3c8b08d92abc63d5ea;
   (-0x620863b4013b8102e09765bcbec4acda075ecb75c1f70f3497e9eedca5f1c07c);
   0x27a238ec38a3784d88e2c77266fcf68abcbc41dd614a91a15356c837fc815835;
   (-0x29a2be405780adab3839f5740762fa63ff970fe85371ead92e566423609c3c351);
   0xe5a959b8cb32fa6034735b6fe813589aa3d301958614f2e524a3b796301bbc9;
   (-0x6eee6f94dd75a515d9e7b8c4e1f6f701fa23da850459639f0b5897ef5706e2d5);
   0xaf8f285ccb5c91834d6760a40635d28fd4fdc2f667d876247af3ab9948f3420b;
   (-0x1909e71c661f20cbe38b642e6acef66b1de5e4437634878aa327c379a67975f92);
   0x35b6ef595425273dd3c3dd53b5d55eef193acd722228fa6dc0b3add6525a3083;
   (-0xba0152d2bbb03927a5b9bf9c1a71d5d00ba653052193d83d457574922f040c47);
   0x196ae39b045242f2ba2df4883d6762ef7b2aa43bca045665c467abb227bc50c7;
   (-0x2a20311db26f8339280e9ca503b7de10e49bff7755cc5d41a76ba893af1e354c0);
   0x20a5e69958c331f3b6c691f225fdc30526aa40b7b0b1c6a39ae41688c1878e3b;
   (-0xb09f83eea5932765b31e1a237e0f5f9082954702743f8e7935121693914936);
   0x3726cb0f54cdbcd8f3005ffcf743df296fb6d8e1d18e203d02e8961c615646ab;
   (-0xacc292d06bb3cc06f9ccf0d8eb47bddcda24ee80fb392ee40866d06fbcb60f3f);
   0x4acaba61bcf7255331ee4147bc2f290d1bcfdf243e3bd52dfb921f9b0e47a50a;
   (-0x5ffaabea02839c22efcc65876ec340aa54bc0715cbd4a3c5cc67156e46fe34969);
   0xe6a3d01a362b8bf337901cee5838829dd30f486400961681ec6e32cd7e720d;
   (-0x18cbde5aa4d3916b3b7c1009935cfc8fdaadd906a294c447610036694c83102d2);
   0x6ead3d1a2f69a8a7abae358766a02529caf9d512b1c0316fce31c0b6b4b8e120;
   (-0x31469c0fff8811c6e6ea91808dd46e6442e830aa680615247e9f703b7b1867ba0);
   0x2da2847ebb84cec200d17906d9b88b3ab6471537dd633256d154c748ae580d36;
   (-0x3b6e9636fb4ffe56095f9e2e6e4ec86e7d6334ae068d08aa865ce1eaa3f139ad);
   0xe20424fc1a0cee01c2fc068459d3bdb1b215aa42303185e55314f98c84c629c6;
   (-0xb1069852b9c2e946f46baf182e1dd323d1e953808fbc491c1ba75acf7203babd);
   0xabbb0a6caa3929b90742ec457e4ee080f3ffc49ddb01e0c6ee73b3f93d5e8851;
   (-0x2777ad20b8f9daa2782fdc6a512d9d120804d4713c152cf339fc7cc7eecd2bce4);
   0xc1e66a6fd77e83984e16d8c7ca695cc8fe24d4488a7598910619a368929a5589;
   (-0x20f17b4be84b8b0ea881692991e4e91d39abef6f0e94bec01adb232702d262a1a);
   0xf3703471f2f4cb46c6508294784df814cc8ab2245f10d127bad172a0182d03;
   (-0xa02cbbcd95c9c631ea07b8a17ac26514303700c3bbe556828f6affe2ddab2b81);
   0x2688abb30a16985236dffb3a72efc877b702c2e6855ac8102c9a4173df6d4485;
   (-0x296e7f3505194d570b5928c003bc26e8486ed70933c5c661beb62205caad7ee11);
   0x92a08e19c48e406b04067fa88199d1b0e4c1b68404e781a66faa2ed656c8b403;
   (-0x23f7e88331ed52630d2da3b1895976b4f6ee63e363c9aa1ef5d0b6c0f4cf546c);
   0x25b962c89930377523ab9355599521794bea464b0d61c648eda26c7638f601e9;
   (-0x7cd9e401f3233d54b3925c2c062c106c12422bc574a714839bb0867bf9ee6c2b);
   0x6c6f43c3704e86348dcef4ec8b65bf841e958e15f81db64f32ae1c51c4773320;
   (-0x6bb09e9970e77109b101f3f0de0103d432eed4a743f838bcc4dd68b44e0e32c77);
   0x46d029d0a1c6b87f482d3b8b254444de54f5899e44965c6fb111a87b2f0a8e6a;
   (-0x24bdccc62d0caa7e8dc845f2c0e4e782b2c208542e2f9aebf9dbc2cc24d4ab0b3);
   0xd7785264fe2dd75deba9d9ca1625c060b8aaef69de8691743e5bd35462ae4911;
   (-0x2f82b729e2bda9f94c7c973ccddeacf8793a365daccf1cf99c0f9fe825751dc);
   0x88b22d4a02db75f5f43842a3737a60951e9c45d2da7e408edd3dcca7bb1a618c;
   (-0x6eaf2b3e2bed755b495089bcaef92e69884989967cf799d022a4c6d8b72260c16);
   0x268a8859d4d9bf463d71e63d2d8a81f39afb4aa3609966b8fb4cc86c68f50d9e;
   (-0x2bacb9a355b95916a0a07284d10a8e1164956852b5a246caec8009d58c86f03a);
   0x143f7a1fa1c3751d81d9a0c3d086bfe2dab6d832a619b711096961ce8436e059;
   (-0x8da07474f4306c19dc6b0a728d13af95560d30e56b70002d5e18a56f7cc10afa);
   0xca4874db52ad2dbcc8643e9fe71e70c37a5e86fa80f365fbef29849d5f74b6af;
   (-0x3e8a434c3dd42ee14c31f38bfddcbff8faf191f71dd27857f4f302049fe6e4049);
   0x951347b0efc57fa93789f5f64f0ebcdcab6aed479f9d7703fee57c1c57e123a2;
   (-0x4f135236a0382f0cd58c4903dd330b02a57131133eadf410c531717a6fbaa4ddd);
   0x19aa38b35e5db6e7b0f5e6e646ba4363407fadb1148faaeecb87bf5ab99784c2;
   (-0x8220ea08668682d03addecbe16865d7244ed08be1b7fd71c3bbac52e194d3991);
   0xd44a545bfb6269504649acfbb25087df1b6b4af23a9636aac3048c1b38e3b939;
   (-0x12e08bbfe71a80e97240a5fe1e316a64e015baf9209ee3fd152295e6700d7510);
   0xbf808da874d85fad1ff129dab17d0ef054cc35f634a7af9191348d03d4e41390;
   (-0x54771a84ea8b7d4ec850975a9d613531c324fc79fe77d1e8048a32e04b5e08b0a);
   0x88e1d5d2bec885aa86538e7a521fc52b52c0fde18a935766c94817adaf1cab6c;
   (-0x13731dbdf5d8411d72abb975b7bfb63adc15fe89b4c1148c65285fabf8ae42ff);
   0xe134dcde89ab8b2a13b9b0371dfb070d24a4f8c8cd2db320ea045de956f581a9;
   (-0xf30099d5bd0d5459c126437a620cbd8be5c99bc8441091a8a24087f0e9621182);
   0x2ed92afe0777a632f469852353f07344434e7b07c84acbf2b29e6a441c1b8182;
   (-0x652921dc4b29b32828e63b199a00ca89f28b46b580c8b2676ba41e3e715528dbd);
   0xb7db638ff4faab92dd2b5e6e54ceb648460ac51917da72ce0045ea99ded3df25;
   (-0x24871d31b2391ff4d6b8fbee1e43d64cded51162dc1b5b6386e850283d085ede3);
   0x50fe465344ce4c51cb23fe5ed88b305ae45c493eadb327b68ba849635a422bf5;
   (-0x3fa281d4dd8105764398e48ad4665ba6f7286799f72c042100ba607e97f1d407a);
   0x39d768da20f8ab12cc466a737286fcf9759ee869c3c558a344ca2f8606a2a47e;
   (-0x3af3583c9306f07c4c265fd83cdc618b5e8b4887e0480298a72bb580334ac34ee);
   0x7e4c5b818d3db1ca01003fc3d2699aac0f9f2eeef9d8f7f8feaa847dc68cfffc;
   (-0x1e70b7029ba39b7dad98e8a5af29d2e97acee4ca51f26b65beeeb3bba9eb9594f);
   0x8bc2379ba967cf3351341a1b5e69b4e69ead1742dfef3e6376dcaf028b548ec4;
   (-0x4f509fb38ccb70efeb9d97380fbc7f2df0d75fe78e61e56f47e6b748822b15104);
   0x11645883128f91680c2e59c6f7135fed669540abc59dbc7d54a6c9bf534ef92;
   (-0x1558b2784057492edd41ca82e73db0ff0eba79060dcc546d58b5cd80499be1273);
   0x7dfa138035aca589f1a85b3b4d711779cee9ffddbbafb70ac2911fa164bb9494;
   (-0x5118dcbc6f0fb044d34b48635435305b4915660386d9b4c828b1ea0811c33789);
   0x802f30b7e20a414b6938331d590a4e624fb92b94d8c7ff55f5b936c3a0fd4504;
   (-0x4e7cdfb487f06d49fa7cd11b304bfb539d7ba502b09c61c12762cc21b5606d93d);
   0x5315d3fcb00665496019be5d9e8eb05f8c4a331182da0b5405634b5358a3cfb;
   (-0x36fe59c71421c0c16d626ca4521d66956d907da133a9334ab09c7c2a7e92e1cbe);
   0x25202f1cee9d5106084c1f907b2f7205e57214b780dff82cd8ef40cfc1a9b63d;
   (-0x2540cd6e002f5289ac0f666128a7f99f46a37efb65c79fd128fcd5c1afd40dbd6);
   0x30d0edfcf7e76fe3833036dea3d84b11072ba0ba5c84e4e2decf77dc7fd29699;
   (-0x1de704ba78faffed8cc1e8124659bb4a09bb4da4a89be301754bb7d342ecc62a);
   0x72fd9aba410811042e6f7e50f3dd0c23052e631f055634c7f10eb01c06554534;
   (-0x2ac62d91d878bb193f1a17711b9a4439120070b3e544aafbaaf63b5b2c9b3289a);
   0xd78b1fe9b7f9f3c241e905386ae71033cf5edcc0f0dfd3bea8c7caadea51344;
   (-0x8c4aa1cc33bba4ee53a4c05589864c748ab102d922b93b0474609b999cfb231e);
   0x20c03c2ef56fbc547440033d05bc1a0560081e7f420c733256a7d9e2da0150e;
   (-0x638a909dec9b30dd602592f96efed3e05b5bed995d806cf0b3cf7aa94b065104);
   0x706fb1ec1f852ee4b5899f87a1255f868e4d9f8ee71496a1574e37c54ea519f4;
   (-0x20dc524737460ce96e3fc485b5934c1a1fb3aab6ed1d1e84076b10d0dbde0acbf);
   0x1628c747ac71ea44cba991c2db21ed852ed571b8a66a392e69e09fecc1d23103;
   (-0x19f4947bb498edd3ac64c2b8ebe75c0452d7c2eb9be997b201e6548d7b0d86462);
   0x1e54e37fefd2c80e9072b827c5dc4bcabf05ac1365a4040fd7109bbeb2201b;
   (-0x5e5e98a5e60ebae06e0e374b65c77b35968918f216553e861ac2045618e2487ee);
   0xcdeb59e8724d5a8746d6de422d3505a7c854b5a634727945fb0a064ddbb38a19;
   (-0x4f519b969c5d7922d1e59539eafd5cd13c188be863ed3eb4ef5f2ede42336e6d1);
   0x59e25b8f7334361dc4b95294fccc498cdc177d4ff8e44622f3975f0570ff87e;
   (-0x6c7a319c3f1cb446584ee4a29f608c4ca11a98465c03db46df37ea51e45e5cb8d);
   0x18d5bbf53d245e955d4ceb2a245a9b40b187c11808e7d22e591c3b1c8c20c31d;
   (-0x2b84a56b451f45f8c198b538deef03f1d3f5362ac2bb39d6e5cc4160ace1648ea);
   0x20bcfdaecc2d98e2ec348b430ca36c1505c845862ae04c7893f17b540945c03b;
   (-0x60f4215f6c82e958c7feebe3c2c308edd4cc6cf380b5eb19da16c10fa998e9bb5);
   0x2784e91f14c8274abf6dae0b8f3ff33a762f1f49c883a602ef2d782b79165321;
   (-0x550074be5b6422c87bf637636a777d4ffcd074207bd1216d6109357ab5de8b74);
   0x5966946d4af5fd81492f69ff06a6f5fc68158b1b3956742c18181057701c4c;
   (-0x243f775bc832215fb08a49b580f7b2f56d8994366983283c8b2e80e8bf5fdaf66);
   0x7704cbb2cb53b0c1a73b9e78d6218fa679e96aa58aec588fc744be18d1b96fa;
   0x3300201f13b30296bcd8bb3012ffe1420930b7383b36df5931a9aceab94298c2;
   (-0x3c193961a37f70d713ea81b3737aa6f7a75bb91e04fa3fd5479a9ecb1ca1199);
   (-0x1ac78cd7931aafd72a0ac5b9df3714ce354f15352468d7eb46b2e777d75842262);
   (-0x6712ccca4d745532a6b75cf8fa8ecdf83c5bbab0d7fb494d5243945c931f2dbb0);
   (-0x48935d8c0679c3ac6ea6d685d8e586ac88c33f7a63e7afff6dc6d97d4c2a636ff);
   (-0x3872f0ffc6a7fbd5d3375692be047d6758a030b67a5b6f6b58473344f968ec37c);
   (-0x547e7a7b045322c1befc97ca33c53ac289b1d6a41a0b6dfbd553b780da1266e5);
   (-0x34d3043fd73ef088a50f63cee297d04e1103b707ed6ddeaecfd123881019bed6e);
   (-0x67b5d78ab4ecc73731d7d4d5c1e47440c3bbcf7483f36e7923401dd8c0bb18009);
   (-0x2b7a47ea574b6ffef4432d4d4caedacd12d687ba92a3357c81e9988afd7891463);
   (-0xf9d7e5027b8019ce150230db88ac0cab856f72239a8c6214c92fadca97ddbda);
   (-0x5db99cb9cbd6a31d07d69a5853d09917c6503013b1e39a1311a78d89d30bd359);
   (-0x37b56e4f02644e3889a262c923b3f41155cc432f6509c2ed6c0aad5989d8f7c66);
   (-0x6769420e154b5a31d5a24eaf16b65d8d29ce7932a67bd69f149608048567e59c8);
   (-0xabff00f20de3b6924c2db9948672952ea63b28643fefbc13f14f762eb589d322);
   (-0x2979811f5d1cc26835553f023f7e6b3e084e0bba68b47161a497de828fca482e);
   (-0xeef94e4ee4ea1a993b706bddd19ed7c858945a52ffa0b667e9ad3545bdd7f1);
   (-0x62b905a4e3b7011490ea69265fddbd4b460a5e9a52760b84fe7a70e42df5e113f);
   (-0x1fa4bccb4ca1039459246202cd97573efb82601939b24a888d06ac300dcc7d1ff);
   (-0x101e76b53fd01cd318c801b13c6e3e23fbfe9a7dadf36b266db5aeb38ce4e2f2);
   (-0x37bc309e70c3716009ae6e2e3a727255fea6fba19c4b36650ceff25969825f7a4);
   (-0x5bb516b826afa104dc031c7f67b3a0544791a6dca915e634eb42e094f8a7ae18);
   (-0xdb91174c74c139b0dd00d8c3e526188d607f9a8e3bd9d9f800ade219612da64);
   (-0x4d37adc5c132fd0ac21a425fc3a51b9c9c03b24cf69c0e467ea19e607b1afc1a3);
   0x21554a9f638bedaca923d3aa2801fd69c39b0f0ccc387a644f86892f840abba8;
   (-0x13649c94c1ac986ac2920e774abb9ed390c621b4b8c94b2eb2b4a6724ed26a675);
   0xf7c46d9b3bd959623dced73dfceb24192646f9199f54561d094457fe1d018f02;
   (-0x2640b3ca72e1cff0e553d2007a88a6a238b4253c5d82d1533c4564b169cd50f0);
   (-0x3b83b98205461d22505c457faeb79e8bfb5a210bfa598df9dba52c8cf727588);
   (-0x127a823d18358187ac5ab99b451702b5ff0e83341101764b94ebbee5d66f41412);
   0x913d6bed31c4b5fe180e8d5c3cda42365268890d9ff05eb544afe60fe0990b96;
   (-0x481f4223f450dd72296a3c690ee19bc5970bbb6687ec7028745efa49618907a84);
   0x453079ad00c8dbc59e170c2a32c63e4ce3f557593a5eea99c02dbdbbf22d948e].
Lemma cube7_val : fst (powh 256 4294968273 (-7) (Z.to_pos ((P - 1) / 3)) cube7_h)
  = 0x7ae96a2b657c07106e64479eac3434e99cf0497512f58995c1396c28719501ee.
Proof. vm_compute. reflexivity. Qed.
Lemma cube7 : (-7) ^ ((P - 1) / 3) mod P <> 1.
Proof.
  replace ((P - 1) / 3) with (Zpos (Z.to_pos ((P - 1) / 3))) by reflexivity.
  rewrite <- (powh_ok P 256 4294968273 (-7) _ cube7_h) by (reflexivity || lia).
  rewrite cube7_val. intros E. vm_compute in E. discriminate.
Qed.

Lemma no_two_torsion_Z x : (x ^ 3 + 7) mod P <> 0.
Proof.
  intros E. apply cube7.
  assert (Hm : (-7) mod P = x ^ 3 mod P).
  { replace (-7) with (x ^ 3 - (x ^ 3 + 7)) by ring. rewrite Zminus_mod, E, Z.sub_0_r. apply Zmod_mod. }
  rewrite <- pow_mod_idemp, Hm, pow_mod_idemp by (vm_compute; discriminate).
  rewrite <- Z.pow_mul_r by (try lia; vm_compute; discriminate).
  replace (3 * ((P - 1) / 3)) with (P - 1) by (vm_compute; reflexivity).
  apply fermat; [apply prime_P|]. intros Z.
  assert (E7 : (-7) mod P = 0).
  { rewrite Hm. rewrite <- pow_mod_idemp, Z by lia. reflexivity. }
  vm_compute in E7. discriminate.
Qed.

Lemma f_no_two_torsion (x : Fp) : fadd (fmul (fmul x x) x) fb <> f0.
Proof.
  rewrite <- (fz_fv x). unfold fb, f0. rewrite <- !fz_mul, <- fz_add. intros E. apply fz_eq_iff in E.
  apply (no_two_torsion_Z (fv x)). rewrite Zmod_0_l in E. rewrite <- E. f_equal. ring.
Qed.

Definition e_assoc := ECGroup.padd_assoc Fp f0 f1 fadd fmul fsub fopp fdiv finv Fp_field Feq_dec fb f_two_nz f_no_two_torsion.
Definition e_comm := ECGroup.padd_comm Fp f0 f1 fadd fmul fsub fopp fdiv finv Fp_field Feq_dec fb f_two_nz f_no_two_torsion.
Definition e_onc_add := ECGroup.onc_add Fp f0 f1 fadd fmul fsub fopp fdiv finv Fp_field Feq_dec fb f_two_nz f_no_two_torsion.

Definition toE (p : point) : ept :=
  let '(x, y) := p in if (x =? 0) && (y =? 0) then EInf else EAff (fz x) (fz y).

Lemma seven_nz : 7 mod P <> 0.
Proof. vm_compute. discriminate. Qed.

Lemma on_curve_nz p : on_curve p -> p <> O.
Proof.
  destruct p as [x y]. intros (Hx & Hy & E) E0. injection E0 as -> ->. cbn [fst snd] in E.
  apply seven_nz. replace 7 with (0 ^ 3 + 7) by reflexivity. rewrite <- E. reflexivity.
Qed.

Lemma on_curve_toE p : on_curve p -> toE p = EAff (fz (fst p)) (fz (snd p)).
Proof.
  intros H. pose proof (on_curve_nz p H) as NZ. destruct p as [x y]. cbn [toE fst snd].
  destruct ((x =? 0) && (y =? 0)) eqn:E; [|reflexivity].
  apply andb_true_iff in E. destruct E as [E1 E2]. apply Z.eqb_eq in E1, E2. subst. exfalso; apply NZ; reflexivity.
Qed.

Lemma on_curve_eonc p : on_curve p -> eonc (EAff (fz (fst p)) (fz (snd p))).
Proof.
  intros (Hx & Hy & E). cbn. unfold fb. rewrite <- !fz_mul, <- fz_add. apply fz_eq.
  replace (snd p * snd p) with (snd p ^ 2) by ring.
  replace (fst p * fst p * fst p) with (fst p ^ 3) by ring. exact E.
Qed.

Lemma is_point_eonc p : is_point p -> eonc (toE p).
Proof.
  intros [->|H]; [exact I|]. rewrite on_curve_toE by exact H. apply on_curve_eonc; exact H.
Qed.

Lemma mod_aux l x x3 y : (l * (x - x3 mod P) - y) mod P = (l * (x - x3) - y) mod P.
Proof. apply fz_eq_iff. rewrite !fz_sub, !fz_mul, !fz_sub, fz_mod. reflexivity. Qed.

Lemma EAff_inj a b c d : EAff a b = EAff c d -> a = c /\ b = d.
Proof. intros E. injection E. auto. Qed.

Lemma toE_inj p q : is_point p -> is_point q -> toE p = toE q -> p = q.
Proof.
  intros [->|Hp] [->|Hq] E; try reflexivity.
  - rewrite (on_curve_toE q Hq) in E. discriminate.
  - rewrite (on_curve_toE p Hp) in E. discriminate.
  - rewrite (on_curve_toE p Hp), (on_curve_toE q Hq) in E. apply EAff_inj in E. destruct E as [E1 E2].
    destruct Hp as (Hpx & Hpy & _), Hq as (Hqx & Hqy & _).
    destruct p, q; cbn [fst snd] in *. f_equal; apply fz_small_inj; assumption.
Qed.

Definition fromE (e : ept) : point :=
  match e with ECGroup.Inf _ => O | ECGroup.Aff _ x y => (fv x, fv y) end.

Lemma fromE_on_curve x y : eonc (EAff x y) -> on_curve (fv x, fv y).
Proof.
  intros H. cbn in H. repeat split; cbn [fst snd]; try apply fv_bound.
  rewrite <- (fz_fv x), <- (fz_fv y) in H. unfold fb in H. rewrite <- !fz_mul, <- fz_add in H.
  apply fz_eq_iff in H. replace (fv y ^ 2) with (fv y * fv y) by ring.
  replace (fv x ^ 3) with (fv x * fv x * fv x) by ring. exact H.
Qed.
Lemma fromE_is_point e : eonc e -> is_point (fromE e).
Proof. destruct e as [|x y]; intros H; [left; reflexivity|right; apply fromE_on_curve; exact H]. Qed.
Lemma toE_fromE e : eonc e -> toE (fromE e) = e.
Proof.
  destruct e as [|x y]; intros H; [reflexivity|].
  cbn [fromE]. rewrite on_curve_toE by (apply fromE_on_curve; exact H). cbn [fst snd]. rewrite !fz_fv. reflexivity.
Qed.
Lemma fromE_toE p : is_point p -> fromE (toE p) = p.
Proof.
  intros H. apply toE_inj; [apply fromE_is_point, is_point_eonc; exact H|exact H|].
  apply toE_fromE, is_point_eonc; exact H.
Qed.

(** The specified addition is the abstract one. *)
Lemma padd_fromE p q : is_point p -> is_point q -> padd p q = fromE (eadd (toE p) (toE q)).
Proof.
  intros Hp Hq.
  destruct p as [x1 y1], q as [x2 y2].
  unfold padd.
  destruct ((x1 =? 0) && (y1 =? 0)) eqn:E1.
  { cbn [toE]. rewrite E1. change (eadd EInf (if (x2 =? 0) && (y2 =? 0) then EInf else EAff (fz x2) (fz y2))) with (toE (x2, y2)).
    symmetry. apply fromE_toE; exact Hq. }
  destruct ((x2 =? 0) && (y2 =? 0)) eqn:E2.
  { assert (E : toE (x2, y2) = EInf) by (cbn [toE]; rewrite E2; reflexivity). rewrite E.
    replace (eadd (toE (x1, y1)) EInf) with (toE (x1, y1)) by (destruct (toE (x1, y1)); reflexivity).
    symmetry. apply fromE_toE; exact Hp. }
  destruct Hp as [Hp|Hp]; [injection Hp as -> ->; discriminate|].
  destruct Hq as [Hq|Hq]; [injection Hq as -> ->; discriminate|].
  rewrite !on_curve_toE by assumption. cbn [fst snd].
  destruct Hp as (Hx1 & Hy1 & C1), Hq as (Hx2 & Hy2 & C2). cbn [fst snd] in *.
  unfold eadd, ECGroup.padd.
  assert (I3 : forall a b c, fsub (fsub (fmul (fz a) (fz a)) (fz b)) (fz c) = fz (a * a - b - c)).
  { intros. rewrite !fz_sub, fz_mul. reflexivity. }
  destruct (Feq_dec (fz x1) (fz x2)) as [e|n].
  - apply fz_small_inj in e; [|assumption..]. subst x2. rewrite Z.eqb_refl. cbn [andb].
    destruct (Feq_dec (fadd (fz y1) (fz y2)) f0) as [e|n].
    + unfold f0 in e. rewrite <- fz_add in e. apply fz_eq_iff in e. rewrite Zmod_0_l in e. rewrite e. reflexivity.
    + replace ((y1 + y2) mod P =? 0) with false.
      2:{ symmetry. apply Z.eqb_neq. intros Z. apply n. unfold f0. rewrite <- fz_add. apply fz_eq. rewrite Z. reflexivity. }
      cbn [fromE].
      assert (L : fdiv (fmul (fadd (fadd f1 f1) f1) (fmul (fz x1) (fz x1))) (fmul (fadd f1 f1) (fz y1)) = fz (3 * x1 * x1 * inv (2 * y1))).
      { unfold fdiv. rewrite fz_mul, fz_inv. f_equal; [|f_equal].
        - unfold f1. rewrite <- !fz_add, <- !fz_mul. f_equal. ring.
        - unfold f1. rewrite <- !fz_add, <- !fz_mul. f_equal. }
      rewrite L, <- fz_mod. rewrite I3. rewrite <- fz_sub, <- fz_mul, <- fz_sub. cbn [fromE]. rewrite !fv_fz.
      f_equal. apply mod_aux.
  - replace (x1 =? x2) with false by (symmetry; apply Z.eqb_neq; intros ->; apply n; reflexivity). cbn [andb].
    assert (L : fdiv (fsub (fz y2) (fz y1)) (fsub (fz x2) (fz x1)) = fz ((y2 - y1) * inv (x2 - x1))).
    { unfold fdiv. rewrite fz_mul, fz_inv, !fz_sub. reflexivity. }
    rewrite L, <- fz_mod. rewrite I3. rewrite <- fz_sub, <- fz_mul, <- fz_sub. cbn [fromE]. rewrite !fv_fz.
    f_equal. apply mod_aux.
Qed.

Lemma pneg_fromE p : is_point p -> pneg p = fromE (eneg (toE p)).
Proof.
  intros [->|H]; [reflexivity|].
  rewrite on_curve_toE by exact H. destruct H as (Hx & Hy & _). unfold pneg. cbn [eneg ECGroup.pneg fromE].
  rewrite <- fz_opp, !fv_fz. f_equal. symmetry. apply Z.mod_small; exact Hx.
Qed.

Lemma eonc_neg e : eonc e -> eonc (eneg e).
Proof. apply (ECGroup.onc_neg Fp f0 f1 fadd fmul fsub fopp fdiv finv Fp_field fb). Qed.

Lemma is_point_O : is_point O. Proof. left; reflexivity. Qed.
Lemma is_point_padd p q : is_point p -> is_point q -> is_point (padd p q).
Proof.
  intros Hp Hq. rewrite padd_fromE by assumption. apply fromE_is_point, e_onc_add; apply is_point_eonc; assumption.
Qed.
Lemma is_point_pneg p : is_point p -> is_point (pneg p).
Proof. intros H. rewrite pneg_fromE by exact H. apply fromE_is_point, eonc_neg, is_point_eonc; exact H. Qed.

Lemma toE_padd p q : is_point p -> is_point q -> toE (padd p q) = eadd (toE p) (toE q).
Proof. intros Hp Hq. rewrite padd_fromE by assumption. apply toE_fromE, e_onc_add; apply is_point_eonc; assumption. Qed.

Lemma padd_comm p q : is_point p -> is_point q -> padd p q = padd q p.
Proof. intros Hp Hq. rewrite !padd_fromE by assumption. unfold eadd. rewrite e_comm by (apply is_point_eonc; assumption). reflexivity. Qed.
Lemma padd_assoc p q r : is_point p -> is_point q -> is_point r -> padd (padd p q) r = padd p (padd q r).
Proof.
  intros Hp Hq Hr.
  rewrite (padd_fromE (padd p q)), (padd_fromE p (padd q r)) by (try apply is_point_padd; assumption).
  rewrite !toE_padd by assumption. f_equal. apply e_assoc; apply is_point_eonc; assumption.
Qed.
Lemma padd_O_l p : padd O p = p. Proof. destruct p; reflexivity. Qed.
Lemma padd_O_r p : padd p O = p.
Proof.
  destruct p as [x y]. cbn. destruct ((x =? 0) && (y =? 0)) eqn:E; [|reflexivity].
  apply andb_true_iff in E. destruct E as [E1 E2]. apply Z.eqb_eq in E1, E2. subst. reflexivity.
Qed.
Lemma padd_pneg_r p : is_point p -> padd p (pneg p) = O.
Proof.
  intros H. rewrite padd_fromE by (try apply is_point_pneg; exact H). rewrite pneg_fromE by exact H.
  rewrite toE_fromE by (apply eonc_neg, is_point_eonc; exact H).
  unfold eadd, eneg. rewrite (ECGroup.padd_neg_r Fp f0 f1 fadd fmul fsub fopp fdiv finv Fp_field). reflexivity.
Qed.
Lemma padd_pneg_l p : is_point p -> padd (pneg p) p = O.
Proof. intros H. rewrite padd_comm by (try apply is_point_pneg; exact H). apply padd_pneg_r; exact H. Qed.
Lemma pneg_invol p : is_point p -> pneg (pneg p) = p.
Proof.
  intros H. apply toE_inj; [apply is_point_pneg, is_point_pneg; exact H|exact H|].
  rewrite pneg_fromE by (apply is_point_pneg; exact H). rewrite pneg_fromE by exact H.
  rewrite !toE_fromE by (repeat apply eonc_neg; try (rewrite toE_fromE; repeat apply eonc_neg); apply is_point_eonc; exact H).
  apply (ECGroup.pneg_invol Fp f0 f1 fadd fmul fsub fopp fdiv finv Fp_field).
Qed.
